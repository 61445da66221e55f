(** * C70: the private functional packing keyswitch of the CUDA backend *)
From Coq Require Import Permutation.
From Verif Require Import Base Word WordFacts NegaRing LweSpec LweModel LweProofs PolySpec PolyModel GlweSpec GlweModel GlweProofs DecompModel DecompProofs ExtProdProofs
  KeyswitchModel PackingProofs CudaSpec CudaModel CudaFacts CudaKsModel CudaKsFacts CudaKsTheorems EngineModel CudaFpksModel CudaFpksProofs.

(** ** One launch *)
Lemma host_grid (k N : nat) : Z.of_nat (S k * N) < 2 ^ 31 -> Z.quot (i32 (Z.of_nat (S k) * Z.of_nat N)) (Z.of_nat fp_threads) = Z.of_nat ((S k * N) / fp_threads).
Proof.
  intros H. rewrite <- Nat2Z.inj_mul. rewrite i32_small by lia. rewrite Z.quot_div_nonneg by (unfold fp_threads; lia). rewrite Nat2Z.inj_div. reflexivity.
Qed.
Lemma chunks_le m : (m / fp_threads * fp_threads <= m)%nat.
Proof. rewrite Nat.mul_comm. apply Nat.mul_div_le. unfold fp_threads. lia. Qed.
Lemma chunks_exactly m : (m mod 256 = 0)%nat -> (m / fp_threads * fp_threads = m)%nat.
Proof. intros H. pose proof (Nat.div_mod m fp_threads ltac:(unfold fp_threads; lia)) as D. change (m mod fp_threads)%nat with (m mod 256)%nat in D. rewrite H, Nat.mul_comm in D. lia. Qed.
Lemma chunks_short m : (m mod 256 <> 0)%nat -> (m / fp_threads * fp_threads <= m - 1)%nat /\ (0 < m)%nat.
Proof.
  intros H. pose proof (Nat.div_mod m fp_threads ltac:(unfold fp_threads; lia)) as D. change (m mod fp_threads)%nat with (m mod 256)%nat in D.
  rewrite Nat.mul_comm in D. set (x := (m / fp_threads * fp_threads)%nat) in *. clearbody x. lia.
Qed.
Lemma nth_concat_const {A} n (ls : list (list A)) i : Forall (fun c => length c = n) ls -> (0 < n)%nat -> nth_error (concat ls) i = nth_error (nth (i / n) ls []) (i mod n).
Proof.
  intros H Hn. pose proof (Nat.div_mod i n ltac:(lia)) as D. pose proof (Nat.mod_upper_bound i n ltac:(lia)) as B.
  destruct (Nat.ltb_spec (i / n) (length ls)) as [Hlt|Hge].
  - rewrite D at 1. rewrite (Nat.mul_comm n). apply (nth_error_concat_gen n); auto.
  - rewrite (nth_overflow ls) by assumption. replace (nth_error (@nil A) (i mod n)) with (@None A) by (destruct (i mod n)%nat; reflexivity).
    apply nth_error_None. rewrite (concat_len n) by assumption. set (q := (i / n)%nat) in *. set (r := (i mod n)%nat) in *. clearbody q r. subst i. clear - Hge. nia.
Qed.

(** The launch on GPU memory.  The keys are [Ks], one after the other, and the ciphertexts [cts]; the output has room for a GLWE
    ciphertext for each.  When the number of words of a GLWE ciphertext is a multiple of 256, ciphertext [s] is keyswitched as on
    the CPU, with the key [s] modulo the number of keys, whatever the order of the threads; the rest of the output is unchanged. *)
Theorem C70_kernel : forall p w b l n_in k N Ks cts out sched, dec_wf w (Dec b l) -> (0 < N)%nat -> Z.of_nat (S k * N) < 2 ^ 31 -> ((S k * N) mod 256 = 0)%nat ->
  Forall (pfkey_wf w l n_in k N) Ks -> Ks <> [] -> Forall (lwe_wf w n_in) cts -> 1 <= Z.of_nat (length cts) <= 65535 -> (length cts * (S k * N) <= length out)%nat ->
  any_order sched ->
  exists goods, length goods = length cts /\
    (forall s after, (s < length cts)%nat -> length after = S k -> Forall (fun a => length a = N) after ->
       private_functional_keyswitch_ciphertext p w b l k (nth (s mod length Ks) Ks []) after (nth s cts []) = Ret (nth s goods []) /\ glwe_wf w k N (nth s goods [])) /\
    host_fp_keyswitch w sched out (concat cts) (concat (map flat_key Ks)) n_in k N b l (Z.of_nat (length cts)) (length Ks)
      = Ret (concat (map (@concat Z) goods) ++ skipn (length cts * (S k * N)) out).
Proof.
  intros p w b l n_in k N Ks cts out sched Hd HN Hsz H256 HKs HnK Hcts Hcount Hout Hsched.
  set (d := Dec b l). set (M := (S k * N)%nat) in *. pose proof (width_nonneg w d Hd) as Hw.
  set (zeros := repeat (repeat 0 N) (S k)).
  assert (Hz1 : length zeros = S k) by apply repeat_length.
  assert (Hz2 : Forall (fun a => length a = N) zeros) by (apply Forall_forall; intros a Ha; apply repeat_spec in Ha; subst; apply repeat_length).
  assert (HnK' : (0 < length Ks)%nat) by (destruct Ks; [congruence|cbn; lia]).
  assert (HK : forall s, pfkey_wf w l n_in k N (nth (s mod length Ks) Ks [])).
  { intros s. rewrite Forall_forall in HKs. apply HKs, nth_In, Nat.mod_upper_bound. lia. }
  assert (Hx : forall s, (s < length cts)%nat -> lwe_wf w n_in (nth s cts [])).
  { intros s Hs. rewrite Forall_forall in Hcts. apply Hcts, nth_In, Hs. }
  assert (Hcpu : forall s, (s < length cts)%nat -> exists good, glwe_wf w k N good /\ (forall c, nth c (concat good) 0 = fp_value w d Ks cts s c) /\
     forall after, length after = S k -> Forall (fun a => length a = N) after ->
       private_functional_keyswitch_ciphertext p w b l k (nth (s mod length Ks) Ks []) after (nth s cts []) = Ret good).
  { intros s Hs. destruct (cpu_cells p w d Hd k N _ zeros _ n_in (proj1 (HK s)) (Hx s Hs) (proj2 (HK s)) Hz1 Hz2) as (good & E & W & P).
    exists good. split; [exact W|]. split; [exact P|]. intros after Ha1 Ha2. rewrite <- E. unfold private_functional_keyswitch_ciphertext.
    rewrite Ha1, Hz1. rewrite (map_zero_glwe k N after), (map_zero_glwe k N zeros) by assumption. reflexivity. }
  destruct (choose_list _ [] (length cts) Hcpu) as (goods & Hgl & Hg). exists goods. split; [exact Hgl|]. split.
  { intros s after Hs Ha1 Ha2. destruct (Hg s Hs) as (W & _ & E). split; [apply E; assumption|exact W]. }
  pose proof (chunks_exactly M H256) as Hex. set (chunks := (M / fp_threads)%nat) in *.
  assert (HMpos : (0 < M)%nat) by (unfold M; clear - HN; nia).
  assert (Hch : (0 < chunks)%nat) by (destruct chunks; lia).
  unfold host_fp_keyswitch. rewrite host_grid by exact Hsz. fold M chunks.
  destruct (Z.leb_spec 1 (Z.of_nat chunks)); [|lia]. destruct (Z.leb_spec 1 (Z.of_nat (length cts))); [|lia]. destruct (Z.leb_spec (Z.of_nat (length cts)) 65535); [|lia].
  cbn [andb]. rewrite !Nat2Z.id.
  destruct (launch_cells w d Hd n_in k N chunks Ks cts HKs HnK Hcts Hch ltac:(fold M; lia) (sched (length cts * chunks * fp_threads)%nat) out (Hsched _) Hout) as (r & E & Hl & Hin & Hout').
  fold M in Hin, Hout'. change (base_log d) with b in E. change (level_count d) with l in E. rewrite E. f_equal.
  assert (Hlens : Forall (fun c => length c = M) (map (@concat Z) goods)).
  { apply Forall_forall. intros c Hc. apply in_map_iff in Hc. destruct Hc as (g & <- & Hgin). apply (In_nth _ _ []) in Hgin. destruct Hgin as (s & Hs & <-).
    destruct (Hg s ltac:(lia)) as (W & _). apply (glwe_lens w k N), W. }
  assert (Hclen : length (concat (map (@concat Z) goods)) = (length cts * M)%nat) by (rewrite (concat_len M) by assumption; rewrite map_length; congruence).
  apply nth_error_ext. intros i. pose proof (Nat.div_mod i M ltac:(lia)) as D. pose proof (Nat.mod_upper_bound i M ltac:(lia)) as B. rewrite Nat.mul_comm in D.
  set (s := (i / M)%nat) in *. set (c := (i mod M)%nat) in *.
  destruct (Nat.ltb_spec s (length cts)) as [Hs|Hs].
  - rewrite nth_error_app1 by (rewrite Hclen; clear - D B Hs; nia). rewrite (nth_concat_const M) by assumption. fold s c.
    rewrite D. rewrite Hin by lia. change (@nil Z) with (concat (@nil (list Z))). rewrite map_nth.
    destruct (Hg s Hs) as (W & P & _). rewrite <- P. symmetry. apply nth_error_nth'. destruct (glwe_lens _ _ _ _ W) as (_ & _ & ->). exact B.
  - rewrite D. rewrite Hout' by (auto; lia). rewrite <- D. rewrite nth_error_app2 by (rewrite Hclen; clear - D Hs; nia). rewrite Hclen.
    assert (Hi : (length cts * M <= i)%nat) by (clear - D Hs; nia). clear - Hi. revert out. generalize (length cts * M)%nat i Hi. clear.
    intros n i Hi out. rewrite <- (firstn_skipn n out) at 1. destruct (Nat.ltb_spec n (length out)).
    + rewrite nth_error_app2 by (rewrite firstn_length; lia). rewrite firstn_length. f_equal. lia.
    + rewrite skipn_all2 by lia. rewrite app_nil_r, firstn_all2 by lia. rewrite (proj2 (nth_error_None _ _)) by lia. destruct (i - n)%nat; reflexivity.
Qed.
Print Assumptions C70_kernel.

(** ** The engine *)
Lemma zip_add_zeros w : 0 <= w -> forall a, Forall (is_word w) a -> zip_update (wadd w) (repeat 0 (length a)) a = a.
Proof. intros Hw. induction 1 as [|x a Hx H IH]; [reflexivity|]. cbn [length repeat zip_update]. rewrite IH. f_equal. unfold wadd. apply Z.mod_small. exact Hx. Qed.
Lemma zip_add_zero_glwe w N : 0 <= w -> forall c, Forall (poly_wf w N) c -> zip_update (zip_update (wadd w)) (repeat (repeat 0 N) (length c)) c = c.
Proof. intros Hw. induction 1 as [|a c [Ha Haw] H IH]; [reflexivity|]. cbn [length repeat zip_update]. rewrite IH. f_equal. rewrite <- Ha. apply zip_add_zeros; assumption. Qed.
Lemma monomial_zero w (a : list Z) : (0 < length a)%nat -> monic_monomial_mul w a 0 = a.
Proof.
  intros H. unfold monic_monomial_mul. rewrite Nat.div_0_l by lia. cbn [Nat.modulo Nat.divmod fst snd Nat.sub Nat.eqb]. rewrite Nat.mod_0_l by lia.
  unfold neg_first, rotate_right. cbn [firstn skipn map app]. rewrite Nat.sub_0_r. rewrite skipn_all, firstn_all. reflexivity.
Qed.

Section Engine.
Context (p : profile) (w b : Z) (l n_in k N : nat) (K : list (list (list (list Z)))).
Hypothesis Hd : dec_wf w (Dec b l).
Hypothesis HN : (0 < N)%nat.
Hypothesis Hsz : Z.of_nat (S k * N) < 2 ^ 31.
Hypothesis HK : pfkey_wf w l n_in k N K.

Lemma one_good ct : lwe_wf w n_in ct -> exists good, glwe_wf w k N good /\ forall after, length after = S k -> Forall (fun a => length a = N) after ->
  private_functional_keyswitch_ciphertext p w b l k K after ct = Ret good.
Proof.
  intros Hct. set (zeros := repeat (repeat 0 N) (S k)).
  assert (Hz1 : length zeros = S k) by apply repeat_length.
  assert (Hz2 : Forall (fun a => length a = N) zeros) by (apply Forall_forall; intros a Ha; apply repeat_spec in Ha; subst; apply repeat_length).
  destruct (cpu_cells p w (Dec b l) Hd k N K zeros ct n_in (proj1 HK) Hct (proj2 HK) Hz1 Hz2) as (good & E & W & _).
  exists good. split; [exact W|]. intros after Ha1 Ha2. cbn [base_log level_count] in E. rewrite <- E. unfold private_functional_keyswitch_ciphertext.
  rewrite Ha1, Hz1. rewrite (map_zero_glwe k N after), (map_zero_glwe k N zeros) by assumption. reflexivity.
Qed.
Notation cpu output cts := (safe_discard_private_functional_packing_keyswitch p w (GlweCt N output) (LweVec (S n_in) cts) (PksKey b l k N K)).
Notation gpu sched available output count vecs :=
  (cuda_discard_private_functional_packing_keyswitch w sched available (convert_glwe (GlweCt N output)) (CudaLweVec n_in count vecs) (convert_pfpks available (PksKey b l k N K))).

Lemma cpu_checks output cts : length output = S k -> (length cts <= N)%nat ->
  cpu output cts = run (private_functional_packing_keyswitch p w b l k K output cts).
Proof.
  intros Ho Hc. unfold safe_discard_private_functional_packing_keyswitch, refuse, neq, lv_dim, lv_count, g_dim. cbn [lv_size lv_cts g_N g_polys pk_b pk_l pk_k pk_N pk_blocks].
  rewrite (proj1 HK), Ho. cbn [Nat.sub]. rewrite !Nat.sub_0_r, !Nat.eqb_refl. cbn [negb]. destruct (Nat.ltb_spec N (length cts)); [lia|]. reflexivity.
Qed.
Lemma gpu_checks sched available output count vecs : length output = S k -> (count <= N)%nat ->
  gpu sched available output count vecs = run (execute_fp_keyswitch w sched available count n_in k N b l 1 vecs (repeat (flat_key K) available) (concat output)).
Proof.
  intros Ho Hc. unfold cuda_discard_private_functional_packing_keyswitch, convert_glwe, convert_pfpks, refuse, neq, g_dim.
  cbn [dl_dim dl_count dl_vecs dg_k dg_N dg_vec dp_in dp_k dp_N dp_b dp_l dp_count dp_vecs g_N g_polys pk_b pk_l pk_k pk_N pk_blocks].
  rewrite (proj1 HK), Ho. cbn [Nat.sub]. rewrite !Nat.sub_0_r, !Nat.eqb_refl. cbn [negb]. destruct (Nat.ltb_spec N count); [lia|]. reflexivity.
Qed.
Lemma cpu_one output ct good : length output = S k -> Forall (fun a => length a = N) output -> glwe_wf w k N good ->
  (forall after, length after = S k -> Forall (fun a => length a = N) after -> private_functional_keyswitch_ciphertext p w b l k K after ct = Ret good) ->
  cpu output [ct] = Ret (Ok good).
Proof.
  intros Ho1 Ho2 Wg Hg. pose proof (width_nonneg w _ Hd) as Hw. rewrite cpu_checks by (auto; cbn; lia). unfold private_functional_packing_keyswitch, pack.
  assert (Hne : exists m x, output = m ++ [x]) by (destruct (exists_last (l := output)) as (m & x & ->); [intros ->; discriminate|eauto]).
  destruct Hne as (m & x & Eo).
  assert (Es : glwe_split output = Ret (m, x)) by (rewrite Eo; apply glwe_split_snoc).
  rewrite Es. cbn [obind].
  assert (Hx : length x = N) by (rewrite Eo in Ho2; apply Forall_app in Ho2; destruct Ho2 as [_ H]; apply Forall_inv in H; exact H).
  assert (Ea : match p with Debug => assert_ (Nat.leb (length [ct]) (length x)) | Release => Ret tt end = Ret tt).
  { destruct p; [|reflexivity]. rewrite Hx. cbn [length]. destruct (Nat.leb_spec 1 N); [reflexivity|lia]. }
  rewrite Ea. cbn [obind]. rewrite (map_zero_glwe k N) by assumption. cbn [pack_loop].
  destruct (glwe_lens _ _ _ _ Wg) as (Hg1 & Hg2 & Hg3).
  rewrite Hg; [|apply repeat_length|apply Forall_forall; intros a Ha; apply repeat_spec in Ha; subst; apply repeat_length]. cbn [obind].
  assert (Em : list_monic_monomial_mul w good 0 = good).
  { unfold list_monic_monomial_mul. rewrite <- (map_id good) at 2. apply map_ext_in. intros a Ha. apply monomial_zero. rewrite Forall_forall in Hg2. rewrite Hg2; auto. }
  rewrite Em. rewrite ck_dim_eq_ok. 2:{ rewrite Hg3. rewrite (concat_len N); [rewrite repeat_length; reflexivity|]. apply Forall_forall; intros a Ha; apply repeat_spec in Ha; subst; apply repeat_length. }
  cbn [obind run]. do 2 f_equal. rewrite <- Hg1. apply zip_add_zero_glwe; [assumption|]. apply Wg.
Qed.
Lemma cpu_some output cts : length output = S k -> Forall (fun a => length a = N) output -> Forall (lwe_wf w n_in) cts -> (length cts <= N)%nat ->
  exists good, cpu output cts = Ret (Ok good) /\ glwe_wf w k N good.
Proof.
  intros Ho1 Ho2 Hcts Hc. pose proof Hd as (H1 & H2 & H3 & H4). cbn [base_log level_count] in *. rewrite cpu_checks by auto.
  assert (Hg : forall i, (i < length cts)%nat -> exists good, glwe_wf w k N good /\ forall after, length after = S k -> Forall (fun a => length a = N) after ->
    private_functional_keyswitch_ciphertext p w b l k K after (nth i cts []) = Ret good).
  { intros i Hi. apply one_good. rewrite Forall_forall in Hcts. apply Hcts, nth_In, Hi. }
  destruct (choose_list _ [] (length cts) Hg) as (goods & _ & HG).
  destruct (pack_ok p w k N (repeat [] k) (private_functional_keyswitch_ciphertext p w b l k K) (fun i => gphase N (repeat [] k) (nth i goods [])) output cts)
    as (out & E & W & _); auto; [nia|apply repeat_length| |].
  - intros i c buf Hi Hbuf. assert (Hlt : (i < length cts)%nat) by (apply nth_error_Some; congruence). destruct (HG i Hlt) as (Wg & Eg).
    destruct (glwe_lens _ _ _ _ Hbuf) as (Hb1 & Hb2 & _). exists (nth i goods []). rewrite (nth_error_nth _ _ [] Hi) in Eg. split; [auto|]. split; [exact Wg|]. reflexivity.
  - exists out. unfold private_functional_packing_keyswitch. rewrite E. split; [reflexivity|exact W].
Qed.

(** One ciphertext, one GPU, and a number of words of the output that is a multiple of 256: whatever the order of the threads, the
    result is that of the CPU. *)
Theorem C70_one_ciphertext : forall output ct sched, length output = S k -> Forall (fun a => length a = N) output -> lwe_wf w n_in ct -> any_order (sched 0%nat) ->
  ((S k * N) mod 256 = 0)%nat ->
  exists good, cpu output [ct] = Ret (Ok good) /\ gpu sched 1%nat output 1%nat [ct] = Ret (Ok (concat good)).
Proof.
  intros output ct sched Ho1 Ho2 Hct Hs H256. destruct (one_good ct Hct) as (good & Wg & Eg). exists good. split; [apply cpu_one; auto|].
  rewrite gpu_checks by (auto; lia). unfold execute_fp_keyswitch. cbn [number_of_active_gpus Nat.ltb Nat.leb seq fp_on_every_gpu].
  change (compute_number_of_samples_on_gpu 1 1 0) with (Ret 1%nat). cbn [obind get nth_error repeat Nat.eqb].
  change (u32 (Z.of_nat 1)) with 1.
  assert (Hol : length (concat output) = (S k * N)%nat) by (rewrite (concat_len N) by assumption; rewrite Ho1; reflexivity).
  destruct (C70_kernel p w b l n_in k N [K] [ct] (concat output) (sched 0%nat) Hd HN Hsz H256) as (goods & Hgl & Hg & E); auto; try discriminate.
  - cbn; lia.
  - cbn [length]. rewrite Hol. lia.
  - cbn [concat map length] in E. rewrite !app_nil_r in E. change (Z.of_nat 1) with 1 in E. rewrite E. cbn [obind run].
    destruct goods as [|g [|]]; try discriminate. destruct (Hg 0%nat (repeat (repeat 0 N) (S k))) as [Eg0 _]; [cbn; lia|apply repeat_length|apply Forall_forall; intros a Ha; apply repeat_spec in Ha; subst; apply repeat_length|].
    cbn [length Nat.modulo Nat.divmod fst snd Nat.sub nth] in Eg0. rewrite Eg in Eg0; [|apply repeat_length|apply Forall_forall; intros a Ha; apply repeat_spec in Ha; subst; apply repeat_length].
    injection Eg0 as <-. cbn [map concat]. rewrite app_nil_r, skipn_all2 by lia. rewrite app_nil_r. reflexivity.
Qed.

(** Otherwise the words after the last multiple of 256 are not written: for every key and every ciphertext there is a content of the
    output for which the two results differ, whatever the order of the threads. *)
Theorem C70_any_size_refuted : forall ct sched, lwe_wf w n_in ct -> any_order (sched 0%nat) -> ((S k * N) mod 256 <> 0)%nat ->
  exists output good r, glwe_wf w k N output /\ cpu output [ct] = Ret (Ok good) /\ gpu sched 1%nat output 1%nat [ct] = Ret (Ok r) /\
    (forall i, ((S k * N) / 256 * 256 <= i)%nat -> nth_error r i = nth_error (concat output) i) /\ r <> concat good.
Proof.
  intros ct sched Hct Hs H256. destruct (one_good ct Hct) as (good & Wg & Eg). pose proof Hd as (H1 & H2 & H3 & H4). cbn [base_log level_count] in *.
  assert (Hw : 1 <= w) by nia. assert (Hp : 1 < 2 ^ w) by (apply Z.pow_gt_1; lia).
  set (f := fun x => (x + 1) mod 2 ^ w). set (output := map (map f) good).
  destruct (glwe_lens _ _ _ _ Wg) as (Hg1 & Hg2 & Hg3).
  assert (Wo : glwe_wf w k N output).
  { split; [unfold output; rewrite map_length; exact Hg1|]. apply Forall_forall. intros a Ha. apply in_map_iff in Ha. destruct Ha as (a0 & <- & Ha0).
    rewrite Forall_forall in Hg2. split; [rewrite map_length; auto|]. apply Forall_forall. intros x Hx. apply in_map_iff in Hx. destruct Hx as (y & <- & _). apply Z.mod_pos_bound. lia. }
  destruct (glwe_lens _ _ _ _ Wo) as (Ho1 & Ho2 & Ho3).
  assert (Hkeep : exists r, gpu sched 1%nat output 1%nat [ct] = Ret (Ok r) /\ forall i, ((S k * N) / 256 * 256 <= i)%nat -> nth_error r i = nth_error (concat output) i).
  { rewrite gpu_checks by (auto; lia). unfold execute_fp_keyswitch. cbn [number_of_active_gpus Nat.ltb Nat.leb seq fp_on_every_gpu].
    change (compute_number_of_samples_on_gpu 1 1 0) with (Ret 1%nat). cbn [obind get nth_error repeat Nat.eqb]. change (u32 (Z.of_nat 1)) with 1.
    unfold host_fp_keyswitch. rewrite host_grid by exact Hsz. change ((S k * N) / 256 * 256)%nat with ((S k * N) / fp_threads * fp_threads)%nat.
    pose proof (chunks_le (S k * N)) as Hle. destruct (Z.leb_spec 1 (Z.of_nat ((S k * N) / fp_threads))) as [Hch|Hch].
    2:{ cbn [andb obind run]. eexists. split; [reflexivity|]. auto. }
    change (1 <=? 1) with true. change (1 <=? 65535) with true. cbn [andb]. rewrite Nat2Z.id. change (Z.to_nat 1) with 1%nat.
    set (chunks := ((S k * N) / fp_threads)%nat) in *.
    destruct (launch_cells w (Dec b l) Hd n_in k N chunks [K] [ct] ltac:(auto) ltac:(discriminate) ltac:(auto) ltac:(lia) Hle (sched 0%nat (1 * chunks * fp_threads)%nat) (concat output) (Hs _)) as (r & E & Hl & _ & Hout).
    { cbn [length]. rewrite Ho3. lia. }
    cbn [map concat length base_log level_count] in E. rewrite !app_nil_r in E. rewrite E. cbn [obind run]. exists r. split; [reflexivity|].
    intros i Hi. destruct (Nat.ltb_spec i (S k * N)) as [Hlt|Hge].
    - specialize (Hout 0%nat i Hlt (or_intror Hi)). cbn [Nat.mul Nat.add] in Hout. exact Hout.
    - rewrite !(proj2 (nth_error_None _ _)); auto; [rewrite Ho3; exact Hge|rewrite Hl, Ho3; exact Hge]. }
  destruct Hkeep as (r & Er & Hr). exists output, good, r. split; [exact Wo|]. split; [apply cpu_one; auto|]. split; [exact Er|]. split; [exact Hr|].
  intros ->. destruct (chunks_short _ H256) as [Hlast Hpos]. specialize (Hr (S k * N - 1)%nat Hlast).
  assert (Ec : concat output = map f (concat good)) by (unfold output; symmetry; apply concat_map). rewrite Ec in Hr. rewrite nth_error_map in Hr.
  destruct (nth_error (concat good) (S k * N - 1)) as [x|] eqn:Ex; [|apply nth_error_None in Ex; lia]. cbn [option_map] in Hr. injection Hr as Hr.
  assert (Hx : is_word w x) by (pose proof (glwe_words _ _ _ _ Wg) as HF; rewrite Forall_forall in HF; eapply HF, nth_error_In; eauto).
  unfold f in Hr. destruct Hx as [Hx1 Hx2]. destruct (Z.eq_dec (x + 1) (2 ^ w)) as [E|E]; [rewrite E, Z.mod_same in Hr by lia; lia|]. rewrite Z.mod_small in Hr by lia. lia.
Qed.

(** Two ciphertexts or more: the checks accept them, as on the CPU, but the kernel does not pack: it writes a GLWE ciphertext per
    input, the second one outside of the output. *)
Theorem C70_vector_refuted : forall output cts sched, length output = S k -> Forall (fun a => length a = N) output -> Forall (lwe_wf w n_in) cts -> any_order (sched 0%nat) ->
  ((S k * N) mod 256 = 0)%nat -> (2 <= length cts <= N)%nat -> Z.of_nat (length cts) <= 65535 ->
  (exists good, cpu output cts = Ret (Ok good) /\ glwe_wf w k N good) /\ gpu sched 1%nat output (length cts) [concat cts] = Panic.
Proof.
  intros output cts sched Ho1 Ho2 Hcts Hs H256 Hc Hc'. split; [apply cpu_some; auto; lia|]. rewrite gpu_checks by (auto; lia).
  unfold execute_fp_keyswitch. rewrite active_min. replace (Nat.min 1 (length cts)) with 1%nat by lia. cbn [seq fp_on_every_gpu].
  assert (Es : compute_number_of_samples_on_gpu 1 (length cts) 0 = Ret (length cts)).
  { unfold compute_number_of_samples_on_gpu. cbn [Nat.eqb Nat.sub]. rewrite Nat.div_1_r, Nat.mod_1_r. f_equal. lia. }
  rewrite Es. cbn [obind get nth_error repeat Nat.eqb]. rewrite u32_small by lia.
  unfold host_fp_keyswitch. rewrite host_grid by exact Hsz. pose proof (chunks_exactly _ H256) as Hex. set (chunks := ((S k * N) / fp_threads)%nat) in *.
  assert (HM : (0 < S k * N)%nat) by (clear - HN; nia).
  assert (Hch : (0 < chunks)%nat) by (clear - Hex HM; destruct chunks; lia).
  destruct (Z.leb_spec 1 (Z.of_nat chunks)); [|lia]. destruct (Z.leb_spec 1 (Z.of_nat (length cts))); [|lia]. destruct (Z.leb_spec (Z.of_nat (length cts)) 65535); [|lia]. cbn [andb]. rewrite !Nat2Z.id.
  pose proof (run_threads_outside w (Dec b l) Hd n_in k N chunks [K] cts ltac:(auto) ltac:(discriminate) Hcts Hch ltac:(rewrite Hex; apply Nat.le_refl) (sched 0%nat (length cts * chunks * fp_threads)%nat) (concat output) (Hs _)) as E.
  cbn [map concat length base_log level_count] in E. rewrite app_nil_r in E. rewrite E; [reflexivity|intros ->; cbn in Hc; lia|].
  rewrite (concat_len N) by assumption. rewrite Ho1, Hex. set (m := (S k * N)%nat) in *. clearbody m. clear - HM Hc. nia.
Qed.

(** Several GPUs.  The samples are counted with the number of GPUs there are: with fewer ciphertexts than GPUs, every one has zero
    and the call returns without having written anything. *)
Theorem C70_fewer_than_gpus_refuted : forall output available vecs count sched, length output = S k -> Forall (fun a => length a = N) output ->
  (count < available)%nat -> (count <= N)%nat -> length vecs = count ->
  gpu sched available output count vecs = Ret (Ok (concat output)).
Proof.
  intros output available vecs count sched Ho1 Ho2 Hc Hc' Hv. rewrite gpu_checks by auto. unfold execute_fp_keyswitch. rewrite active_min. rewrite Nat.min_r by lia.
  assert (G : forall n a o, (a + n = count)%nat -> fp_on_every_gpu w sched available count n_in k N b l 1 vecs (repeat (flat_key K) available) (seq a n) o = Ret o).
  { induction n as [|n IH]; intros a o Ha; [reflexivity|]. cbn [seq fp_on_every_gpu]. rewrite samples_share by lia. unfold share. rewrite Nat.div_small by lia.
    destruct (Nat.eqb_spec a (available - 1)); [lia|]. cbn [obind Nat.add].
    destruct (nth_error vecs a) as [v|] eqn:Ev; [|apply nth_error_None in Ev; lia]. rewrite (get_some _ _ _ Ev). cbn [obind].
    rewrite (get_some _ _ (flat_key K)) by (apply nth_error_repeat; lia). cbn [obind]. change (u32 (Z.of_nat 0)) with 0.
    assert (Eh : forall o', host_fp_keyswitch w (sched a) o' v (flat_key K) n_in k N b l 0 1 = Ret o').
    { intros o'. unfold host_fp_keyswitch. change (1 <=? 0) with false. rewrite andb_false_r. reflexivity. }
    rewrite !Eh. cbn [obind]. destruct (Nat.eqb a 0); cbn [obind]; apply IH; lia. }
  rewrite G by lia. reflexivity.
Qed.
(** With at least as many ciphertexts as GPUs, and two GPUs or more, the second GPU writes to the memory of the first. *)
Theorem C70_other_gpus_refuted : forall output available ctss count sched, length output = S k -> Forall (fun a => length a = N) output ->
  (2 <= available <= count)%nat -> (count <= N)%nat -> Z.of_nat count <= 65535 -> (forall i, any_order (sched i)) -> ((S k * N) mod 256 = 0)%nat ->
  length ctss = available -> Forall (Forall (lwe_wf w n_in)) ctss -> (forall i, (i < available)%nat -> length (nth i ctss []) = share available count i) ->
  gpu sched available output count (map (@concat Z) ctss) = Panic.
Proof.
  intros output available ctss count sched Ho1 Ho2 Ha Hc Hc' Hs H256 Hl Hcts Hshare. rewrite gpu_checks by (auto; lia). unfold execute_fp_keyswitch. rewrite active_min. rewrite Nat.min_l by lia.
  destruct available as [|[|av]]; [lia|lia|]. cbn [seq fp_on_every_gpu repeat get nth_error]. rewrite !samples_share by lia.
  destruct ctss as [|c0 [|c1 ctss]]; try discriminate. cbn [map obind get nth_error Nat.eqb].
  match goal with |- run (obind ?x ?y) = Panic => destruct x as [o|]; [|reflexivity] end. cbn [obind].
  pose proof (Hshare 1%nat ltac:(lia)) as H1. cbn [nth] in H1. set (s := share (S (S av)) count 1) in *.
  assert (Hsl : (1 <= s <= count)%nat).
  { unfold s, share. pose proof (Nat.div_mod count (S (S av)) ltac:(lia)) as D. assert (1 <= count / S (S av))%nat by (apply Nat.div_le_lower_bound; lia).
    set (q := (count / S (S av))%nat) in *. set (r := (count mod S (S av))%nat) in *. clearbody q r. destruct (Nat.eqb 1 (S (S av) - 1)); split; try lia; clear - D; nia. }
  rewrite u32_small by lia. unfold host_fp_keyswitch at 1. rewrite host_grid by exact Hsz. pose proof (chunks_exactly _ H256) as Hex. set (chunks := ((S k * N) / fp_threads)%nat) in *.
  assert (HM : (0 < S k * N)%nat) by (clear - HN; nia).
  assert (Hch : (0 < chunks)%nat) by (clear - Hex HM; destruct chunks; lia).
  destruct (Z.leb_spec 1 (Z.of_nat chunks)); [|lia]. destruct (Z.leb_spec 1 (Z.of_nat s)); [|lia]. destruct (Z.leb_spec (Z.of_nat s) 65535); [|lia]. cbn [andb]. rewrite !Nat2Z.id.
  assert (Hc1 : Forall (lwe_wf w n_in) c1) by (apply Forall_inv_tail, Forall_inv in Hcts; exact Hcts).
  pose proof (run_threads_outside w (Dec b l) Hd n_in k N chunks [K] c1 ltac:(auto) ltac:(discriminate) Hc1 Hch ltac:(rewrite Hex; apply Nat.le_refl) (sched 1%nat (length c1 * chunks * fp_threads)%nat) [] (Hs _ _)) as E.
  cbn [map concat length base_log level_count] in E. rewrite app_nil_r, H1 in E. rewrite E; [reflexivity|intros ->; cbn [length] in H1; clear - H1 Hsl; lia|].
  set (x := (chunks * fp_threads)%nat) in *. clearbody x. lia.
Qed.
End Engine.
Print Assumptions C70_one_ciphertext.
Print Assumptions C70_any_size_refuted.
Print Assumptions C70_vector_refuted.
Print Assumptions C70_fewer_than_gpus_refuted.
Print Assumptions C70_other_gpus_refuted.

(** A concrete case of the hypotheses: 4-bit words, b = 2, l = 1, one coefficient in the mask of the input, and GLWE ciphertexts of
    two polynomials of 128 words, the threads run from the last to the first; then the same with polynomials of 3 words, and with two
    ciphertexts. *)
Definition fp_ex_poly (N a : nat) : list Z := map (fun i => Z.of_nat (a + 3 * i) mod 16) (seq 0 N).
Definition fp_ex_key (N : nat) : list (list (list (list Z))) := [[[fp_ex_poly N 1; fp_ex_poly N 2]]; [[fp_ex_poly N 5; fp_ex_poly N 7]]].
Definition fp_ex_sched (gpu n : nat) : list nat := rev (seq 0 n).
Definition fp_ex_out (N : nat) : list (list Z) := [repeat 9 N; repeat 9 N].
Lemma fp_ex_key_wf N : pfkey_wf 4 1 1 1 N (fp_ex_key N).
Proof.
  assert (HP : forall a, poly_wf 4 N (fp_ex_poly N a)).
  { intros a. split; [unfold fp_ex_poly; rewrite map_length, seq_length; reflexivity|]. apply Forall_forall. intros x Hx. apply in_map_iff in Hx. destruct Hx as (i & <- & _).
    apply Z.mod_pos_bound. lia. }
  split; [reflexivity|]. repeat (constructor; auto).
Qed.
Lemma fp_ex_order gpu : any_order (fp_ex_sched gpu).
Proof. intros n. apply Permutation_sym, Permutation_rev. Qed.
Example C70_case : dec_wf 4 (Dec 2 1) /\ pfkey_wf 4 1 1 1 128 (fp_ex_key 128) /\ pfkey_wf 4 1 1 1 3 (fp_ex_key 3) /\ lwe_wf 4 1 [7; 12] /\ any_order (fp_ex_sched 0) /\
  ((2 * 128) mod 256 = 0)%nat /\ ((2 * 3) mod 256 <> 0)%nat.
Proof.
  split; [unfold dec_wf; cbn; lia|]. split; [apply fp_ex_key_wf|]. split; [apply fp_ex_key_wf|]. split; [split; [reflexivity|repeat constructor; lia]|].
  split; [apply fp_ex_order|]. split; [reflexivity|discriminate].
Qed.
Example C70_case_packed :
  match cuda_discard_private_functional_packing_keyswitch 4 fp_ex_sched 1 (convert_glwe (GlweCt 128 (fp_ex_out 128))) (CudaLweVec 1 1 [[7; 12]]) (convert_pfpks 1 (PksKey 2 1 1 128 (fp_ex_key 128))) with
  | Ret (Ok r) => length r = 256%nat /\ firstn 4 r = [3; 0; 13; 10] /\ safe_discard_private_functional_packing_keyswitch Debug 4 (GlweCt 128 (fp_ex_out 128)) (LweVec 2 [[7; 12]]) (PksKey 2 1 1 128 (fp_ex_key 128)) = Ret (Ok [firstn 128 r; skipn 128 r])
  | _ => False
  end.
Proof. vm_compute. repeat split. Qed.
Example C70_case_unchanged :
  cuda_discard_private_functional_packing_keyswitch 4 fp_ex_sched 1 (convert_glwe (GlweCt 3 (fp_ex_out 3))) (CudaLweVec 1 1 [[7; 12]]) (convert_pfpks 1 (PksKey 2 1 1 3 (fp_ex_key 3)))
  = Ret (Ok [9; 9; 9; 9; 9; 9]).
Proof. vm_compute. reflexivity. Qed.
Example C70_case_two :
  cuda_discard_private_functional_packing_keyswitch 4 fp_ex_sched 1 (convert_glwe (GlweCt 128 (fp_ex_out 128))) (CudaLweVec 1 2 [[7; 12; 3; 5]]) (convert_pfpks 1 (PksKey 2 1 1 128 (fp_ex_key 128)))
  = Panic.
Proof. vm_compute. reflexivity. Qed.
