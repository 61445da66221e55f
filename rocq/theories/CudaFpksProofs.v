(** * The threads of the functional keyswitch kernel *)
From Coq Require Import Permutation ArithRing.
From Verif Require Import Base Word WordFacts NegaRing LweSpec LweModel LweProofs PolySpec GlweSpec GlweModel GlweProofs DecompModel DecompProofs ExtProdProofs
  KeyswitchSpec KeyswitchProofs KeyswitchModel PackingProofs CudaSpec CudaModel CudaFacts CudaKsModel CudaKsProofs CudaKsFacts EngineModel CudaFpksModel.

(** ** The CPU, cell by cell *)
Lemma concat_zip {f : Z -> Z -> Z} N : forall o r, length o = length r -> Forall (fun a => length a = N) o -> Forall (fun a => length a = N) r ->
  concat (zip_update (zip_update f) o r) = zip_update f (concat o) (concat r).
Proof.
  assert (G : forall a b x y, length a = length b -> zip_update f (a ++ x) (b ++ y) = zip_update f a b ++ zip_update f x y).
  { induction a as [|u a IH]; intros [|v b] x y H; try discriminate; [reflexivity|]. cbn. rewrite IH by (cbn in H; lia). reflexivity. }
  induction o as [|a o IH]; intros [|c r] H Ho Hr; try discriminate; [reflexivity|]. cbn [zip_update concat].
  pose proof (Forall_inv Ho) as H1. pose proof (Forall_inv Hr) as H2. cbn beta in H1, H2.
  rewrite G by congruence. rewrite IH; auto; [eapply Forall_inv_tail; eauto|eapply Forall_inv_tail; eauto].
Qed.
Lemma glwe_lens w k N c : glwe_wf w k N c -> length c = S k /\ Forall (fun a => length a = N) c /\ length (concat c) = (S k * N)%nat.
Proof.
  intros [H1 H2]. assert (H3 : Forall (fun a => length a = N) c) by (eapply Forall_impl; [|exact H2]; intros a [Ha _]; exact Ha).
  split; [assumption|]. split; [assumption|]. rewrite (concat_len N) by assumption. lia.
Qed.
Lemma glwe_words w k N c : glwe_wf w k N c -> Forall (is_word w) (concat c).
Proof. intros [_ H]. apply Forall_concat. eapply Forall_impl; [|exact H]. intros a [_ Ha]. exact Ha. Qed.

Section Cell.
Context (p : profile) (w : Z) (d : decomposer) (Hd : dec_wf w d) (k N : nat).
Notation b := (base_log d).
Notation l := (level_count d).
Lemma width_nonneg : 0 <= w.
Proof. pose proof Hd as (? & ? & ? & ?). nia. Qed.

Lemma glwe_sub_mul_cell o r x : glwe_wf w k N o -> glwe_wf w k N r -> is_word w x ->
  exists o', glwe_sub_element_mul p w o r x = Ret o' /\ glwe_wf w k N o' /\
    forall c : nat, eqm (2 ^ w) (nth c (concat o') 0) (nth c (concat o) 0 - x * nth c (concat r) 0).
Proof.
  intros Ho Hr Hx. pose proof width_nonneg as Hw.
  destruct (glwe_lens _ _ _ _ Ho) as (Ho1 & Ho2 & Ho3). destruct (glwe_lens _ _ _ _ Hr) as (Hr1 & Hr2 & Hr3).
  destruct (glwe_sub_element_mul_ok p w k N (repeat [] k) o r x Hw (repeat_length _ _) Ho Hr) as (o' & E & Wo & _).
  exists o'. split; [exact E|]. split; [exact Wo|].
  unfold glwe_sub_element_mul in E. rewrite ck_dim_eq_ok in E by congruence. cbn [obind] in E. injection E as <-.
  intros c. rewrite (concat_zip N) by (auto; congruence). rewrite zip_update_map2 by congruence.
  destruct (Nat.ltb_spec c (S k * N)) as [Hc|Hc].
  - assert (En : nth c (map2 (fun x0 c0 => wsub w x0 (wmul w c0 x)) (concat o) (concat r)) 0 = wsub w (nth c (concat o) 0) (wmul w (nth c (concat r) 0) x)).
    { apply nth_error_nth. rewrite nth_error_map2, (nth_error_nth' (concat o) 0), (nth_error_nth' (concat r) 0) by lia. reflexivity. }
    rewrite En, wsub_eqm, wmul_eqm. apply eqm_eq. ring.
  - rewrite !nth_overflow by (try rewrite map2_length; lia). apply eqm_eq. ring.
Qed.

Definition cell_sum (K : list (list (list (list Z)))) (xs : list Z) (c : nat) : Z :=
  zsum (length xs) (fun i => zsum l (fun j => sdigit w d (l - 1 - j) (nth i xs 0) * nth c (concat (nth j (nth i K []) [])) 0)).

Lemma cpu_cells K after xs n_in : length K = S n_in -> lwe_wf w n_in xs -> Forall (fun bl => length bl = l /\ Forall (glwe_wf w k N) bl) K ->
  length after = S k -> Forall (fun a => length a = N) after ->
  exists good, private_functional_keyswitch_ciphertext p w b l k K after xs = Ret good /\ glwe_wf w k N good /\
    forall c, nth c (concat good) 0 = (- cell_sum K xs c) mod 2 ^ w.
Proof.
  intros HK [Hxl Hxw] HKw Ha1 Ha2. pose proof width_nonneg as Hw. pose proof Hd as (H1 & H2 & H3 & H4).
  unfold private_functional_keyswitch_ciphertext. rewrite ck_dim_eq_ok by lia. cbn [obind]. rewrite ck_dim_eq_ok by lia. cbn [obind].
  rewrite dec_new_ok by assumption. cbn [obind]. rewrite (map_zero_glwe k N) by assumption.
  assert (Ed : Dec b l = d) by (destruct d; reflexivity). rewrite Ed.
  pose proof (zeros_glwe_wf w k N Hw) as Hz. unfold glwe_allocate in Hz.
  destruct (ks_blocks_ok p w d Hd (glwe_sub_element_mul p w) (glwe_wf w k N) (fun (c : nat) o => nth c (concat o) 0)
     ltac:(intros; apply glwe_sub_mul_cell; auto) [] K xs (repeat (repeat 0 N) (S k))) as (good & E & Wg & P); auto; [congruence|].
  exists good. split; [exact E|]. split; [exact Wg|]. intros c.
  assert (Ez : nth c (concat (repeat (repeat 0 N) (S k))) 0 = 0).
  { destruct (nth_in_or_default c (concat (repeat (repeat 0 N) (S k))) 0) as [Hin|]; [|assumption].
    apply in_concat in Hin. destruct Hin as (a & Ha & Hin). apply repeat_spec in Ha. subst a. apply repeat_spec in Hin. exact Hin. }
  apply (eqm_small (2 ^ w)).
  - destruct (nth_in_or_default c (concat good) 0) as [Hin| ->]; [|split; [lia|apply pow2_pos; lia]].
    pose proof (glwe_words _ _ _ _ Wg) as HF. rewrite Forall_forall in HF. apply HF. exact Hin.
  - apply Z.mod_pos_bound, pow2_pos. lia.
  - rewrite P, Ez, eqm_mod. unfold cell_sum. apply eqm_eq. lia.
Qed.

(** ** A thread *)
Section Thread.
Context (keys : list Z) (base n_in : nat) (K : list (list (list (list Z)))) (cell : nat).
Hypothesis Hread : forall i j, (i <= n_in)%nat -> (j < l)%nat -> nth_error keys (base + i * fp_ksk_block_size l k N + j * (S k * N) + cell) = Some (nth cell (concat (nth j (nth i K []) [])) 0).

Lemma fp_levels_ok i : (i <= n_in)%nat -> forall q a st acc, (a + q = l)%nat -> 0 <= st <= 2 ^ (b * Z.of_nat q) ->
  exists v, fp_levels w b l k N keys (base + i * fp_ksk_block_size l k N) cell (seq a q) st acc = Ret v /\
    (is_word w acc -> is_word w v) /\
    eqm (2 ^ w) v (acc - zsum q (fun t => dgt w b q t st * nth cell (concat (nth (l - 1 - (a + t)) (nth i K []) [])) 0)).
Proof.
  pose proof width_nonneg as Hw. intros Hi. induction q as [|q IH]; intros a st acc Haq Hst.
  - exists acc. split; [reflexivity|]. split; [auto|]. rewrite zsum_0. apply eqm_eq. lia.
  - cbn [seq fp_levels]. destruct (gpu_one_level w d Hd q st) as [E Hst']; [lia|assumption|]. rewrite E.
    destruct (decompose_one_level w b st) as [D st'] eqn:Ed. cbn [snd] in Hst'.
    rewrite (get_some _ _ (nth cell (concat (nth (l - a - 1) (nth i K []) [])) 0)).
    2:{ apply Hread; lia. }
    cbn [obind]. destruct (IH (S a) st' (wsub w acc (wmul w D (nth cell (concat (nth (l - a - 1) (nth i K []) [])) 0)))) as (v & Ev & Wv & Qv); [lia|assumption|].
    exists v. split; [exact Ev|]. split; [intros _; apply Wv, wsub_word; assumption|]. rewrite Qv, zsum_S_l, wsub_eqm, wmul_eqm. apply eqm_eq.
    rewrite dgt_0, Ed. cbn [fst]. rewrite Nat.add_0_r. replace (l - 1 - a)%nat with (l - a - 1)%nat by lia.
    rewrite (zsum_ext q (fun t => dgt w b (S q) (S t) st * nth cell (concat (nth (l - 1 - (a + S t)) (nth i K []) [])) 0)
       (fun t => dgt w b q t st' * nth cell (concat (nth (l - 1 - (S a + t)) (nth i K []) [])) 0)); [lia|].
    intros t _. rewrite dgt_S, Ed. cbn [snd]. replace (a + S t)%nat with (S a + t)%nat by lia. reflexivity.
Qed.

Context (lwes : list Z) (cur : nat) (xs : list Z).
Hypothesis Hxs : lwe_wf w n_in xs.
Hypothesis Hin : forall i, (i <= n_in)%nat -> nth_error lwes (cur + i) = Some (nth i xs 0).

Lemma fp_loop_ok : fp_loop w b l k N keys lwes cur base cell (seq 0 (S n_in)) 0 = Ret ((- cell_sum K xs cell) mod 2 ^ w).
Proof.
  pose proof width_nonneg as Hw. destruct Hxs as [Hxl Hxw].
  assert (G : forall n a acc, (a + n = S n_in)%nat -> exists v, fp_loop w b l k N keys lwes cur base cell (seq a n) acc = Ret v /\ (is_word w acc -> is_word w v) /\
    eqm (2 ^ w) v (acc - zsum n (fun i => zsum l (fun j => sdigit w d (l - 1 - j) (nth (a + i) xs 0) * nth cell (concat (nth j (nth (a + i) K []) [])) 0)))).
  { induction n as [|n IH]; intros a acc Han; [exists acc; split; [reflexivity|]; split; [auto|]; rewrite zsum_0; apply eqm_eq; lia|].
    cbn [seq fp_loop]. rewrite (get_some _ _ _ (Hin a ltac:(lia))). cbn [obind].
    assert (Hx : is_word w (nth a xs 0)) by (rewrite Forall_forall in Hxw; apply Hxw, nth_In; lia).
    rewrite gpu_round_closest by auto. destruct (start_state w d Hd _ Hx) as [_ Hs].
    destruct (fp_levels_ok a ltac:(lia) l 0 (shr (closest_representable w d (nth a xs 0)) (w - b * Z.of_nat l)) acc) as (v1 & E1 & W1 & Q1); [lia|exact Hs|].
    rewrite E1. cbn [obind]. destruct (IH (S a) v1) as (v & E & W & Q); [lia|]. exists v. split; [exact E|]. split; [auto|].
    rewrite Q, Q1, zsum_S_l, Nat.add_0_r.
    assert (Ed : eqm (2 ^ w) (zsum l (fun t => dgt w b l t (shr (closest_representable w d (nth a xs 0)) (w - b * Z.of_nat l)) * nth cell (concat (nth (l - 1 - (0 + t)) (nth a K []) [])) 0))
       (zsum l (fun j => sdigit w d (l - 1 - j) (nth a xs 0) * nth cell (concat (nth j (nth a K []) [])) 0))).
    { rewrite <- (zsum_rev l (fun j => sdigit w d (l - 1 - j) (nth a xs 0) * nth cell (concat (nth j (nth a K []) [])) 0)).
      apply zsum_eqm. intros t Ht. replace (l - 1 - (l - 1 - t))%nat with t by lia. cbn [Nat.add]. unfold sdigit. rewrite sgn_eqm. reflexivity. }
    rewrite Ed. apply eqm_eq.
    rewrite (zsum_ext n (fun i => zsum l (fun j => sdigit w d (l - 1 - j) (nth (a + S i) xs 0) * nth cell (concat (nth j (nth (a + S i) K []) [])) 0))
      (fun i => zsum l (fun j => sdigit w d (l - 1 - j) (nth (S a + i) xs 0) * nth cell (concat (nth j (nth (S a + i) K []) [])) 0))); [lia|].
    intros i _. replace (a + S i)%nat with (S a + i)%nat by lia. reflexivity. }
  destruct (G (S n_in) 0%nat 0 eq_refl) as (v & E & W & Q). rewrite E. f_equal. apply (eqm_small (2 ^ w)).
  - apply W. split; [lia|apply pow2_pos; lia].
  - apply Z.mod_pos_bound, pow2_pos. lia.
  - rewrite Q, eqm_mod. unfold cell_sum. rewrite Hxl. apply eqm_eq. cbn [Nat.add]. lia.
Qed.
End Thread.
End Cell.

(** ** The key in memory *)
Definition pfkey_wf (w : Z) (l n_in k N : nat) (K : list (list (list (list Z)))) : Prop :=
  length K = S n_in /\ Forall (fun bl => length bl = l /\ Forall (glwe_wf w k N) bl) K.
Definition flat_key (K : list (list (list (list Z)))) : list Z := concat (concat (concat K)).

Lemma concat_concat_map {A} (x : list (list (list A))) : concat (concat x) = concat (map (@concat A) x).
Proof. induction x as [|a x IH]; [reflexivity|]. cbn [concat map]. rewrite concat_app, IH. reflexivity. Qed.
Lemma flat_rows K : flat_key K = concat (map (@concat Z) (concat K)).
Proof. unfold flat_key. apply concat_concat_map. Qed.
Lemma key_rows w l n_in k N K : pfkey_wf w l n_in k N K -> Forall (fun r => length r = (S k * N)%nat) (map (@concat Z) (concat K)) /\ length (concat K) = (S n_in * l)%nat.
Proof.
  intros [H1 H2]. split.
  - apply Forall_forall. intros r Hr. apply in_map_iff in Hr. destruct Hr as (x & <- & Hx). apply in_concat in Hx. destruct Hx as (bl & Hb & Hx).
    rewrite Forall_forall in H2. destruct (H2 _ Hb) as [_ H3]. rewrite Forall_forall in H3. apply (glwe_lens w k N), H3, Hx.
  - rewrite (concat_len l); [rewrite H1; reflexivity|]. eapply Forall_impl; [|exact H2]. intros a [Ha _]. exact Ha.
Qed.
Lemma flat_length w l n_in k N K : pfkey_wf w l n_in k N K -> length (flat_key K) = fp_ksk_size l n_in k N.
Proof.
  intros H. destruct (key_rows _ _ _ _ _ _ H) as [H1 H2]. rewrite flat_rows, (concat_len (S k * N)) by assumption. rewrite map_length, H2. unfold fp_ksk_size. ring.
Qed.
Lemma key_cell w l n_in k N K i j c : pfkey_wf w l n_in k N K -> (i <= n_in)%nat -> (j < l)%nat -> (c < S k * N)%nat ->
  nth_error (flat_key K) (i * fp_ksk_block_size l k N + j * (S k * N) + c) = Some (nth c (concat (nth j (nth i K []) [])) 0).
Proof.
  intros HK Hi Hj Hc. destruct (key_rows _ _ _ _ _ _ HK) as [H1 H2]. rewrite flat_rows.
  replace (i * fp_ksk_block_size l k N + j * (S k * N) + c)%nat with ((i * l + j) * (S k * N) + c)%nat by (unfold fp_ksk_block_size; ring).
  assert (Hij : (i * l + j < S n_in * l)%nat) by (clear - Hi Hj; nia).
  rewrite (nth_error_concat_gen (S k * N) _ _ _ []); auto; [|rewrite map_length, H2; exact Hij].
  assert (Er : nth (i * l + j) (map (@concat Z) (concat K)) [] = concat (nth j (nth i K []) [])).
  { change (@nil Z) with (@concat Z []). rewrite map_nth. f_equal. destruct HK as [HK1 HK2].
    apply nth_error_nth. rewrite (nth_error_concat_gen l _ _ _ []); [| |assumption|lia].
    - apply nth_error_nth'. rewrite Forall_forall in HK2. destruct (HK2 (nth i K [])) as [-> _]; [apply nth_In; lia|assumption].
    - eapply Forall_impl; [|exact HK2]. intros a [Ha _]. exact Ha. }
  rewrite Er. apply nth_error_nth'. destruct HK as [HK1 HK2]. rewrite Forall_forall in HK2. destruct (HK2 (nth i K [])) as [Hl Hr]; [apply nth_In; lia|].
  rewrite Forall_forall in Hr. destruct (glwe_lens w k N (nth j (nth i K []) [])) as (_ & _ & ->); [apply Hr, nth_In; lia|assumption].
Qed.

(** ** The grid *)
Lemma grid_coords chunks t : (0 < chunks)%nat -> exists s c r, (t = (s * chunks + c) * fp_threads + r /\ c < chunks /\ r < fp_threads /\
  t mod fp_threads = r /\ (t / fp_threads) mod chunks = c /\ (t / fp_threads) / chunks = s)%nat.
Proof.
  intros Hc. exists ((t / fp_threads) / chunks)%nat, ((t / fp_threads) mod chunks)%nat, (t mod fp_threads)%nat.
  assert (HT : (fp_threads <> 0)%nat) by (unfold fp_threads; lia). generalize dependent fp_threads. intros T HT.
  pose proof (Nat.div_mod t T HT). pose proof (Nat.mod_upper_bound t T HT). pose proof (Nat.div_mod (t / T) chunks ltac:(lia)). pose proof (Nat.mod_upper_bound (t / T) chunks ltac:(lia)).
  repeat split; auto. rewrite (Nat.mul_comm _ chunks), <- H1, (Nat.mul_comm _ T). exact H.
Qed.
Lemma grid_index chunks s c r : (c < chunks)%nat -> (r < fp_threads)%nat ->
  let t := ((s * chunks + c) * fp_threads + r)%nat in (t mod fp_threads = r /\ (t / fp_threads) mod chunks = c /\ (t / fp_threads) / chunks = s)%nat.
Proof.
  intros Hc Hr t. assert (HT : (fp_threads <> 0)%nat) by (unfold fp_threads; lia).
  assert (E1 : (t / fp_threads = s * chunks + c)%nat) by (unfold t; rewrite Nat.div_add_l, Nat.div_small by assumption; lia).
  split; [unfold t; rewrite Nat.add_comm, Nat.mod_add, Nat.mod_small by assumption; reflexivity|]. rewrite E1. split.
  - rewrite Nat.add_comm, Nat.mod_add, Nat.mod_small by lia. reflexivity.
  - rewrite Nat.div_add_l, Nat.div_small by lia. lia.
Qed.
Lemma place_inj M s c s' c' : (c < M)%nat -> (c' < M)%nat -> (s * M + c = s' * M + c')%nat -> s = s' /\ c = c'.
Proof.
  intros Hc Hc' E. assert (s = s').
  { apply (f_equal (fun x => x / M)%nat) in E. rewrite !Nat.div_add_l, !Nat.div_small in E by lia. lia. }
  subst. split; [reflexivity|]. lia.
Qed.

Section Launch.
Context (w : Z) (d : decomposer) (Hd : dec_wf w d) (n_in k N chunks : nat) (Ks : list (list (list (list (list Z))))) (cts : list (list Z)).
Notation b := (base_log d).
Notation l := (level_count d).
Notation M := (S k * N)%nat.
Hypothesis HKs : Forall (pfkey_wf w l n_in k N) Ks.
Hypothesis HnK : Ks <> [].
Hypothesis Hcts : Forall (lwe_wf w n_in) cts.
Hypothesis Hchunks : (0 < chunks)%nat.
Hypothesis HM : (chunks * fp_threads <= M)%nat.
Definition fp_value (s c : nat) : Z := (- cell_sum w d (nth (s mod length Ks) Ks []) (nth s cts []) c) mod 2 ^ w.
Notation kern := (fp_keyswitch w b l n_in k N (concat (map flat_key Ks)) chunks (length Ks) (concat cts)).

Lemma chunk_cell c r : (c < chunks)%nat -> (r < fp_threads)%nat -> (c * fp_threads + r < chunks * fp_threads)%nat.
Proof. intros. nia. Qed.
Lemma thread_ok s c r : (s < length cts)%nat -> (c < chunks)%nat -> (r < fp_threads)%nat ->
  kern ((s * chunks + c) * fp_threads + r)%nat = Ret (Some ((s * M + (c * fp_threads + r))%nat, fp_value s (c * fp_threads + r))).
Proof.
  intros Hs Hc Hr. destruct (grid_index chunks s c r Hc Hr) as (E1 & E2 & E3). unfold fp_keyswitch. rewrite E1, E2, E3.
  assert (HnK' : (0 < length Ks)%nat) by (destruct Ks; [congruence|cbn; lia]).
  destruct (Nat.ltb_spec 0 (length Ks)); [|lia]. cbn [assert_ obind].
  pose proof (chunk_cell c r Hc Hr) as Hcell. set (cell := (c * fp_threads + r)%nat) in *.
  pose proof (Nat.mod_upper_bound s (length Ks) ltac:(lia)) as Hid. set (id := (s mod length Ks)%nat) in *.
  assert (HK : pfkey_wf w l n_in k N (nth id Ks [])) by (rewrite Forall_forall in HKs; apply HKs, nth_In; assumption).
  assert (Hx : lwe_wf w n_in (nth s cts [])) by (rewrite Forall_forall in Hcts; apply Hcts, nth_In; assumption).
  rewrite (fp_loop_ok w d Hd k N (concat (map flat_key Ks)) (id * fp_ksk_size l n_in k N) n_in (nth id Ks []) cell) with (xs := nth s cts []); [reflexivity| |assumption|].
  - intros i j Hi Hj. pose proof (key_cell w l n_in k N _ i j cell HK Hi Hj ltac:(lia)) as Er.
    rewrite <- !Nat.add_assoc. rewrite (nth_error_concat_gen (fp_ksk_size l n_in k N) _ _ _ []).
    + change (@nil Z) with (flat_key []). rewrite map_nth, Nat.add_assoc. exact Er.
    + apply Forall_forall. intros x Hxx. apply in_map_iff in Hxx. destruct Hxx as (y & <- & Hy). apply (flat_length w). rewrite Forall_forall in HKs. auto.
    + rewrite Nat.add_assoc, <- (flat_length w l n_in k N (nth id Ks [])) by assumption. apply nth_error_Some. congruence.
    + rewrite map_length. assumption.
  - intros i Hi. destruct Hx as [Hx1 Hx2]. rewrite (nth_error_concat_gen (S n_in) _ _ _ []); [apply nth_error_nth'; lia| |lia|assumption].
    eapply Forall_impl; [|exact Hcts]. intros a [Ha _]. exact Ha.
Qed.

Definition fp_write (t : nat) : option (nat * Z) :=
  let s := ((t / fp_threads) / chunks)%nat in let cell := (((t / fp_threads) mod chunks) * fp_threads + t mod fp_threads)%nat in
  Some ((s * M + cell)%nat, fp_value s cell).
Lemma grid_total t : (t < length cts * chunks * fp_threads)%nat -> (((t / fp_threads) / chunks) < length cts)%nat.
Proof.
  intros Ht. apply Nat.div_lt_upper_bound; [lia|]. apply Nat.div_lt_upper_bound; [unfold fp_threads; lia|]. clear - Ht. nia.
Qed.
Lemma kern_write t : (t < length cts * chunks * fp_threads)%nat -> kern t = Ret (fp_write t).
Proof.
  intros Ht. pose proof (grid_total t Ht) as Hs. destruct (grid_coords chunks t Hchunks) as (s & c & r & E & Hc & Hr & E1 & E2 & E3). unfold fp_write. rewrite E1, E2, E3 in *.
  rewrite E. apply thread_ok; auto.
Qed.

Lemma launch_cells order out : Permutation order (seq 0 (length cts * chunks * fp_threads)) -> (length cts * M <= length out)%nat ->
  exists r, run_threads kern order out = Ret r /\ length r = length out /\
    (forall s c, (s < length cts)%nat -> (c < chunks * fp_threads)%nat -> nth_error r (s * M + c) = Some (fp_value s c)) /\
    (forall s c, (c < M)%nat -> (length cts <= s)%nat \/ (chunks * fp_threads <= c)%nat -> nth_error r (s * M + c) = nth_error out (s * M + c)).
Proof.
  intros HP Hout. assert (Hin : forall t, In t order <-> (t < length cts * chunks * fp_threads)%nat).
  { intros t. split; intros H; [apply (Permutation_in _ HP), in_seq in H; lia|apply (Permutation_in _ (Permutation_sym HP)), in_seq; lia]. }
  assert (Hcoord : forall t, exists s c, fp_write t = Some ((s * M + c)%nat, fp_value s c) /\ (c < chunks * fp_threads)%nat /\ (s = (t / fp_threads) / chunks)%nat /\
      (c = ((t / fp_threads) mod chunks) * fp_threads + t mod fp_threads)%nat /\ (t = s * chunks * fp_threads + c)%nat).
  { intros t. destruct (grid_coords chunks t Hchunks) as (s & c & r & E & Hc & Hr & E1 & E2 & E3). exists s, (c * fp_threads + r)%nat. unfold fp_write. rewrite E1, E2, E3.
    split; [reflexivity|]. split; [apply chunk_cell; auto|]. repeat split; auto. rewrite E. clear. ring. }
  destruct (scatter kern fp_write order out) as (r & E & Hl & Hw & Hu).
  - apply (Permutation_NoDup (Permutation_sym HP)), seq_NoDup.
  - intros t Ht. apply kern_write, Hin, Ht.
  - intros t j v Ht Ef. apply Hin, grid_total in Ht. destruct (Hcoord t) as (s & c & Ew & Hc & Es & _). rewrite Ew in Ef. injection Ef as <- _. rewrite <- Es in Ht. clear - Ht Hc HM Hout. nia.
  - intros t t' j v v' E1 E2. destruct (Hcoord t) as (s & c & Ew & Hc & Es & Ec & Et). destruct (Hcoord t') as (s' & c' & Ew' & Hc' & Es' & Ec' & Et').
    rewrite Ew in E1. rewrite Ew' in E2. injection E1 as <- _. injection E2 as E2 _. destruct (place_inj M s' c' s c) as [-> ->]; [lia|lia|exact E2|]. congruence.
  - exists r. split; [exact E|]. split; [exact Hl|]. split.
    + intros s c Hs Hc. set (t := (s * chunks * fp_threads + c)%nat).
      assert (Ht : (t < length cts * chunks * fp_threads)%nat) by (unfold t; clear - Hs Hc; nia).
      apply (Hw t); [apply Hin; exact Ht|]. destruct (Hcoord t) as (s' & c' & Ew & Hc' & _ & _ & Et). rewrite Ew. unfold t in Et.
      destruct (place_inj (chunks * fp_threads) s c s' c') as [-> ->]; [assumption|assumption|rewrite <- !Nat.mul_assoc in Et; exact Et|reflexivity].
    + intros s c Hc Hor. apply Hu. intros t v Ht Ew'. apply Hin in Ht. pose proof (grid_total t Ht) as Hs. destruct (Hcoord t) as (s' & c' & Ew & Hc' & Es & _).
      rewrite Ew in Ew'. injection Ew' as E1 _. destruct (place_inj M s' c' s c) as [-> ->]; [lia|assumption|exact E1|]. lia.
Qed.

Lemma run_threads_outside order out : Permutation order (seq 0 (length cts * chunks * fp_threads)) -> cts <> [] -> (length out < length cts * M - M + chunks * fp_threads)%nat ->
  run_threads kern order out = Panic.
Proof.
  intros HP Hne Hout.
  set (t := ((length cts - 1) * chunks * fp_threads + (chunks * fp_threads - 1))%nat).
  assert (Hct : (0 < length cts)%nat) by (destruct cts; [congruence|cbn; lia]).
  assert (HT : (0 < fp_threads)%nat) by (unfold fp_threads; lia).
  assert (Ht : (t < length cts * chunks * fp_threads)%nat) by (unfold t; clear - Hct Hchunks HT; nia).
  assert (Hin : In t order) by (apply (Permutation_in _ (Permutation_sym HP)), in_seq; lia).
  assert (Hall : forall u, In u order -> kern u = Ret (fp_write u)).
  { intros u Hu. apply kern_write. apply (Permutation_in _ HP), in_seq in Hu. lia. }
  assert (Hj : exists j v, fp_write t = Some (j, v) /\ (length out <= j)%nat).
  { assert (Et : t = (((length cts - 1) * chunks + (chunks - 1)) * fp_threads + (fp_threads - 1))%nat) by (unfold t; clear - Hct Hchunks HT; nia).
    destruct (grid_index chunks (length cts - 1) (chunks - 1) (fp_threads - 1)) as (E1 & E2 & E3); [lia|lia|]. rewrite <- Et in E1, E2, E3.
    unfold fp_write. rewrite E1, E2, E3. eexists _, _. split; [reflexivity|].
    assert (Ec : ((chunks - 1) * fp_threads + (fp_threads - 1) = chunks * fp_threads - 1)%nat) by (clear - Hchunks HT; nia). rewrite Ec.
    rewrite Nat.mul_sub_distr_r, Nat.mul_1_l. assert (1 * M <= length cts * M)%nat by (apply Nat.mul_le_mono_r; lia). generalize dependent (length cts * M)%nat. intros X. lia. }
  destruct Hj as (j & v & Ej & Hj). clear HP Ht. revert out Hout Hj. clearbody t. induction order as [|u order IH]; intros out Hout Hj; [destruct Hin|].
  cbn [run_threads]. rewrite (Hall u (or_introl eq_refl)). cbn [obind]. destruct Hin as [->|Hin].
  - rewrite Ej. unfold set_word. destruct (Nat.ltb_spec j (length out)); [lia|]. reflexivity.
  - destruct (fp_write u) as [[j' v']|]; cbn [obind].
    + destruct (Nat.ltb_spec j' (length out)) as [Hlt|Hge].
      * destruct (set_word_nth out j' v' Hlt) as (o & -> & Hl & _). cbn [obind]. apply IH; auto; try (rewrite Hl; assumption). intros; apply Hall; right; auto.
      * unfold set_word. destruct (Nat.ltb_spec j' (length out)); [lia|]. reflexivity.
    + apply IH; auto. intros; apply Hall; right; auto.
Qed.
End Launch.
