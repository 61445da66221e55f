(** * The programs of the threads of the keyswitch kernel *)
From Verif Require Import Base Word WordFacts NegaRing LweModel LweProofs DecompModel DecompProofs ExtProdProofs KeyswitchSpec KeyswitchProofs KeyswitchModel
  CudaModel CudaFacts CudaKsModel CudaKsProofs.

(** ** Rounding and digits are those of the CPU *)
Section Decomp.
Context (w : Z) (d : decomposer) (Hd : dec_wf w d).
Notation b := (base_log d).
Notation l := (level_count d).

Lemma gpu_round_closest x : is_word w x -> gpu_round w b l x = closest_representable w d x.
Proof.
  intros Hx. destruct (closest_sum_bound w d Hd x Hx) as [H1 H2]. pose proof Hd as (Hb & Hl & Hbl & Hw). 
  unfold gpu_round, closest_representable. rewrite (Z.mul_comm (Z.of_nat l) b).
  assert (E : shl w 1 (w - b * Z.of_nat l - 1) = 2 ^ (w - b * Z.of_nat l - 1)).
  { unfold shl. rewrite Z.mul_1_l. apply Z.mod_small. split; [apply Z.pow_nonneg; lia|]. apply Z.pow_lt_mono_r; nia. }
  rewrite E. f_equal. unfold wadd. apply Z.mod_small. split.
  - apply Z.add_nonneg_nonneg; [exact H1|]. unfold shr. apply Z.div_pos; [apply Z.land_nonneg; destruct Hx; lia|apply Z.pow_pos_nonneg; nia].
  - eapply Z.le_lt_trans; [apply H2|]. apply Z.pow_lt_mono_r; nia.
Qed.
Lemma gpu_one_level k st : (S k <= l)%nat -> 0 <= st <= 2 ^ (b * Z.of_nat (S k)) ->
  gpu_decompose_one w b st = decompose_one_level w b st /\ 0 <= snd (decompose_one_level w b st) <= 2 ^ (b * Z.of_nat k).
Proof.
  intros Hk Hst. pose proof Hd as (Hb & Hl & Hbl & Hw). 
  destruct (one_level w b st) as (D & st' & E & _ & _ & H0 & Hle); [nia|lia|].
  assert (Hst' : 0 <= st' <= 2 ^ (b * Z.of_nat k)).
  { split; [assumption|]. apply Hle; [nia|]. rewrite <- Z.pow_add_r by nia. replace (b + b * Z.of_nat k) with (b * Z.of_nat (S k)) by lia. lia. }
  split; [|rewrite E; exact Hst'].
  assert (Em : (2 ^ b - 1) mod 2 ^ w = 2 ^ b - 1).
  { apply Z.mod_small. pose proof (pow2_pos b ltac:(lia)). assert (2 ^ b < 2 ^ w) by (apply Z.pow_lt_mono_r; nia). lia. }
  unfold gpu_decompose_one. rewrite Em. unfold decompose_one_level in *. injection E as E1 E2. f_equal. unfold wadd. rewrite E2. apply Z.mod_small.
  split; [lia|]. eapply Z.le_lt_trans; [apply Hst'|]. apply Z.pow_lt_mono_r; nia.
Qed.
End Decomp.

(** ** The cells of a thread *)
Lemma ks_cells_spec m t c : (t < ideal_threads)%nat -> In c (ks_cells m t) <-> (c < m /\ c mod ideal_threads = t)%nat.
Proof.
  intros Ht. unfold ks_cells, ks_split. assert (HI : ideal_threads = 128%nat) by reflexivity. set (I := ideal_threads) in *. clearbody I.
  pose proof (Nat.div_mod m I ltac:(lia)) as Dm. pose proof (Nat.mod_upper_bound m I ltac:(lia)) as Bm.
  assert (G : forall k, In c (map (fun k => t + k * I)%nat (seq 0 k)) <-> (c mod I = t /\ c / I < k)%nat).
  { intros k. rewrite in_map_iff. split.
    - intros (x & <- & Hx). apply in_seq in Hx. rewrite Nat.mod_add, Nat.div_add, Nat.mod_small, Nat.div_small by lia. lia.
    - intros [H1 H2]. exists (c / I)%nat. split; [|apply in_seq; lia]. pose proof (Nat.div_mod c I ltac:(lia)). lia. }
  pose proof (Nat.div_mod c I ltac:(lia)) as Dc. pose proof (Nat.mod_upper_bound c I ltac:(lia)) as Bc.
  destruct (Nat.eqb_spec (m mod I) 0) as [E|E].
  - destruct (Nat.ltb t 0); rewrite G; split; intros [H1 H2]; split; auto; clear G; set (qc := (c / I)%nat) in *; set (qm := (m / I)%nat) in *; clearbody qc qm; nia.
  - assert (Hceil : ((m + I - 1) / I = S (m / I))%nat).
    { symmetry. apply (Nat.div_unique _ I _ (m mod I - 1)); lia. }
    rewrite Hceil. set (qm := (m / I)%nat) in *. set (rm := (m mod I)%nat) in *. set (qc := (c / I)%nat) in *. set (rc := (c mod I)%nat) in *.
    replace (I - (S qm * I - m))%nat with rm by (clear - Dm Bm E; nia).
    clearbody qc qm rm rc. destruct (Nat.ltb_spec t rm) as [H|H]; rewrite G; clear G; split; intros [H1 H2]; split; auto; nia.
Qed.
Lemma ks_cells_nodup m t : NoDup (ks_cells m t).
Proof.
  unfold ks_cells. destruct (ks_split m) as [[lo up] cu]. set (k := if Nat.ltb t cu then up else lo). clearbody k.
  apply FinFun.Injective_map_NoDup; [|apply seq_NoDup]. intros x y H. unfold ideal_threads in H. lia.
Qed.

(** ** Items: a barrier, or a row subtracted from the cells *)
Section Items.
Context (w : Z) (cells : list nat).
Definition row_code (F : nat -> Z) : list instr := flat_map (fun idx => [Load idx; StoreSub idx (F idx)]) cells.
Definition item_code (it : option (nat -> Z)) : list instr := match it with None => [Sync] | Some F => row_code F end.
Definition out_code : list instr := flat_map (fun idx => [Load idx; StoreOut idx]) cells.
Definition item_effect (c : nat) (v : Z) (it : option (nat -> Z)) : Z := match it with None => v | Some F => wsub w v (F c) end.

Lemma row_solo F : forall cs c x, NoDup cs -> st_s (solo w (flat_map (fun idx => [Load idx; StoreSub idx (F idx)]) cs) x) c =
  if in_dec Nat.eq_dec c cs then wsub w (st_s x c) (F c) else st_s x c.
Proof.
  induction cs as [|a cs IH]; intros c x Hn; [reflexivity|]. apply NoDup_cons_iff in Hn. destruct Hn as [Ha Hn].
  cbn [flat_map app]. change (solo w (Load a :: StoreSub a (F a) :: ?q) x) with (solo w q (exec1 w (StoreSub a (F a)) (exec1 w (Load a) x))).
  rewrite IH by auto. unfold st_s. cbn [exec1 fst snd]. fold (st_s x).
  destruct (in_dec Nat.eq_dec c cs) as [H|H]; destruct (in_dec Nat.eq_dec c (a :: cs)) as [H'|H']; try (exfalso; apply H'; right; exact H).
  - unfold upd. destruct (Nat.eqb_spec c a); [subst; contradiction|reflexivity].
  - destruct H' as [->|H']; [rewrite upd_same; reflexivity|contradiction].
  - unfold upd. destruct (Nat.eqb_spec c a); [subst; exfalso; apply H'; left; auto|reflexivity].
Qed.
Lemma items_solo : forall items c x, NoDup cells -> In c cells -> st_s (solo w (flat_map item_code items) x) c = fold_left (item_effect c) items (st_s x c).
Proof.
  induction items as [|it items IH]; intros c x Hn Hc; [reflexivity|]. cbn [flat_map]. rewrite solo_app, IH by auto. cbn [fold_left]. f_equal.
  destruct it as [F|]; [|reflexivity]. cbn [item_code item_effect]. unfold row_code. rewrite row_solo by auto. destruct (in_dec Nat.eq_dec c cells); [reflexivity|contradiction].
Qed.
Lemma out_solo : forall cs c x, NoDup cs -> In c cs -> st_o (solo w (flat_map (fun idx => [Load idx; StoreOut idx]) cs) x) c = st_s x c.
Proof.
  assert (G : forall cs c x, ~ In c cs -> st_o (solo w (flat_map (fun idx => [Load idx; StoreOut idx]) cs) x) c = st_o x c).
  { induction cs as [|a cs IH]; intros c x H; [reflexivity|]. cbn [flat_map app]. change (solo w (Load a :: StoreOut a :: ?q) x) with (solo w q (exec1 w (StoreOut a) (exec1 w (Load a) x))).
    rewrite IH by (intros H1; apply H; right; auto). unfold st_o. cbn [exec1 fst snd]. unfold upd. destruct (Nat.eqb_spec c a); [subst; exfalso; apply H; left; auto|reflexivity]. }
  induction cs as [|a cs IH]; intros c x Hn Hc; [destruct Hc|]. apply NoDup_cons_iff in Hn. destruct Hn as [Ha Hn].
  cbn [flat_map app]. change (solo w (Load a :: StoreOut a :: ?q) x) with (solo w q (exec1 w (StoreOut a) (exec1 w (Load a) x))).
  destruct (Nat.eq_dec c a) as [->|Hne].
  - rewrite G by auto. unfold st_o. cbn [exec1 fst snd]. apply upd_same.
  - destruct Hc as [->|Hc]; [congruence|]. rewrite IH by auto. reflexivity.
Qed.
Lemma code_idx items i c : In i (flat_map item_code items ++ out_code) -> idx_of i = Some c -> In c cells.
Proof.
  intros Hi Hc. apply in_app_or in Hi. destruct Hi as [Hi|Hi].
  - apply in_flat_map in Hi. destruct Hi as ([F|] & _ & Hi); [|destruct Hi as [<-|[]]; discriminate]. cbn [item_code] in Hi. apply in_flat_map in Hi.
    destruct Hi as (a & Ha & Hi). destruct Hi as [<-|[<-|[]]]; cbn in Hc; congruence.
  - apply in_flat_map in Hi. destruct Hi as (a & Ha & Hi). destruct Hi as [<-|[<-|[]]]; cbn in Hc; congruence.
Qed.
Lemma code_syncs items : syncs (flat_map item_code items ++ out_code) = length (filter (fun it => match it with None => true | Some _ => false end) items).
Proof.
  assert (G : forall (f : nat -> list instr) cs, (forall a, syncs (f a) = 0%nat) -> syncs (flat_map f cs) = 0%nat).
  { induction cs as [|a cs IH]; intros H; [reflexivity|]. cbn [flat_map]. rewrite syncs_app, H, IH by auto. reflexivity. }
  rewrite syncs_app. unfold out_code. rewrite (G _ cells) by reflexivity. rewrite Nat.add_0_r. induction items as [|it items IH]; [reflexivity|].
  cbn [flat_map filter]. rewrite syncs_app, IH. destruct it as [F|]; [|reflexivity]. cbn [item_code]. unfold row_code. rewrite G by reflexivity. reflexivity.
Qed.
End Items.

Lemma nth_error_concat_gen {A} : forall n (gr : list (list A)) i j d, Forall (fun c => length c = n) gr -> (j < n)%nat -> (i < length gr)%nat -> nth_error (concat gr) (i * n + j) = nth_error (nth i gr d) j.
Proof.
  intros n gr i j d H Hj. revert i. induction H as [|c gr Hc H IH]; intros i Hi; [cbn in Hi; lia|]. cbn [concat]. destruct i as [|i].
  - cbn [nth Nat.mul Nat.add]. rewrite nth_error_app1; auto. lia.
  - cbn [nth Nat.mul]. rewrite nth_error_app2 by lia. rewrite Hc. replace (n + i * n + j - n)%nat with (i * n + j)%nat by lia. apply IH. cbn in Hi. lia.
Qed.

(** ** The program of a thread, explicitly *)
Section Code.
Context (w : Z) (d : decomposer) (Hd : dec_wf w d) (n_in n_out : nat) (K : list (list (list Z))) (mask : list Z) (body : Z).
Notation b := (base_log d).
Notation l := (level_count d).
Hypothesis HK : length K = n_in.
Hypothesis HKl : Forall (fun bl => length bl = l /\ Forall (fun r => length r = S n_out /\ Forall (is_word w) r) bl) K.
Hypothesis Hmask : length mask = n_in.
Hypothesis Hwords : Forall (is_word w) mask.
Hypothesis Hsmall : Z.of_nat n_in * Z.of_nat l * (Z.of_nat n_out + 1) < 2 ^ 31.
Notation ksk := (concat (concat K)).
Notation lwe_in := (mask ++ [body]).
Definition key_row (i level : nat) : list Z := nth level (nth i K []) [].
Definition term_at (i level : nat) (D : Z) (idx : nat) : Z := wmul w (nth idx (key_row i level) 0) D.
Definition digit_at (i q : nat) : Z := xdigit w d q (nth i mask 0).
Definition step_items (i : nat) : list (option (nat -> Z)) := None :: map (fun q => Some (term_at i (l - q - 1) (digit_at i q))) (seq 0 l).
Definition all_items : list (option (nat -> Z)) := flat_map step_items (seq 0 n_in).

Lemma key_read i level idx : (i < n_in)%nat -> (level < l)%nat -> (idx < S n_out)%nat ->
  get ksk (Z.to_nat (ith_block i level n_out l + Z.of_nat idx)) = Ret (nth idx (key_row i level) 0).
Proof.
  intros Hi Hlv Hidx. rewrite Forall_forall in HKl.
  assert (Hbl : In (nth i K []) K) by (apply nth_In; lia). destruct (HKl _ Hbl) as [Hlen Hrows]. rewrite Forall_forall in Hrows.
  assert (Hrow : In (key_row i level) (nth i K [])) by (apply nth_In; lia). destruct (Hrows _ Hrow) as [Hr _].
  assert (E : ith_block i level n_out l = Z.of_nat ((i * l + level) * S n_out)).
  { unfold ith_block. rewrite i32_small; [lia|]. split; [lia|].
    assert (Z.of_nat i * Z.of_nat l * (Z.of_nat n_out + 1) + Z.of_nat level * (Z.of_nat n_out + 1) <= Z.of_nat n_in * Z.of_nat l * (Z.of_nat n_out + 1)).
    { rewrite <- Z.mul_add_distr_r. apply Z.mul_le_mono_nonneg_r; [lia|]. clear - Hi Hlv. nia. }
    lia. }
  rewrite E, <- Nat2Z.inj_add, Nat2Z.id. apply get_some. rewrite (nth_error_concat_gen (S n_out) _ _ _ []); auto.
  - replace (nth (i * l + level) (concat K) []) with (key_row i level); [apply nth_error_nth'; lia|].
    symmetry. apply nth_error_nth. rewrite (nth_error_concat_gen l _ _ _ []); [apply nth_error_nth'; lia| |auto|lia].
    apply Forall_forall. intros x Hx. apply HKl; auto.
  - apply Forall_forall. intros x Hx. apply in_concat in Hx. destruct Hx as (bl & Hb & Hx). destruct (HKl _ Hb) as [_ H]. rewrite Forall_forall in H. apply H. auto.
  - rewrite (concat_len l); [rewrite HK; clear - Hi Hlv; nia|]. apply Forall_forall. intros x Hx. apply HKl; auto.
Qed.

Lemma levels_code tid i : (tid < ideal_threads)%nat -> (i < n_in)%nat -> forall k a st, (a + k = l)%nat -> 0 <= st <= 2 ^ (b * Z.of_nat k) ->
  ks_gpu_levels w b l n_out ksk tid i (seq a k) st = Ret (flat_map (fun q => row_code (ks_cells (S n_out) tid) (term_at i (l - (a + q) - 1) (dgt w b k q st))) (seq 0 k)).
Proof.
  intros Ht Hi. induction k as [|k IH]; intros a st Hak Hst; [reflexivity|]. cbn [seq ks_gpu_levels].
  destruct (gpu_one_level w d Hd k st) as [E Hst']; [lia|auto|]. rewrite E. destruct (decompose_one_level w b st) as [D st'] eqn:Ed. cbn [snd] in Hst'.
  unfold ks_row. rewrite (omap_ok _ (fun idx => [Load idx; StoreSub idx (term_at i (l - a - 1) D idx)])).
  - cbn [obind]. rewrite (IH (S a) st') by (auto; lia). cbn [obind]. f_equal. cbn [flat_map]. rewrite Nat.add_0_r, dgt_0, Ed. cbn [fst]. f_equal.
    + unfold row_code. rewrite flat_map_concat_map. reflexivity.
    + rewrite <- seq_shift, flat_map_concat_map, (flat_map_concat_map _ (map S _)), map_map. f_equal. apply map_ext. intros q. rewrite dgt_S, Ed. cbn [snd]. do 3 f_equal. lia.
  - intros idx Hidx. apply ks_cells_spec in Hidx; auto. rewrite key_read by lia. reflexivity.
Qed.
Lemma step_code tid i : (tid < ideal_threads)%nat -> (i < n_in)%nat ->
  ks_gpu_step w b l n_out ksk lwe_in tid i = Ret (flat_map (item_code (ks_cells (S n_out) tid)) (step_items i)).
Proof.
  intros Ht Hi. unfold ks_gpu_step. rewrite (get_some _ _ (nth i mask 0)).
  2:{ rewrite nth_error_app1 by lia. apply nth_error_nth'. lia. }
  cbn [obind]. assert (Hx : is_word w (nth i mask 0)) by (rewrite Forall_forall in Hwords; apply Hwords, nth_In; lia).
  rewrite gpu_round_closest by auto. destruct (start_state w d Hd _ Hx) as [_ Hs].
  rewrite (levels_code tid i Ht Hi l 0) by (auto; lia). cbn [obind]. f_equal. unfold step_items. cbn [flat_map item_code app]. f_equal.
  rewrite !flat_map_concat_map, map_map. reflexivity.
Qed.
Lemma thread_code tid : (tid < ideal_threads)%nat ->
  ks_thread w b l n_in n_out ksk lwe_in tid = Ret ([Sync] ++ map (fun c => Store c 0) (ks_cells (S n_out) tid) ++ (if Nat.eqb tid 0 then [Store n_out body] else []) ++
    flat_map (item_code (ks_cells (S n_out) tid)) all_items ++ out_code (ks_cells (S n_out) tid)).
Proof.
  intros Ht. unfold ks_thread. rewrite (omap_ok _ (fun i => flat_map (item_code (ks_cells (S n_out) tid)) (step_items i))).
  2:{ intros i Hi. apply in_seq in Hi. apply step_code; auto. lia. }
  assert (Eb : (if Nat.eqb tid 0 then let! body := get lwe_in n_in in Ret [Store n_out body] else Ret []) = Ret (if Nat.eqb tid 0 then [Store n_out body] else [])).
  { destruct (Nat.eqb tid 0); [|reflexivity]. rewrite (get_some _ _ body); [reflexivity|]. rewrite nth_error_app2 by lia. rewrite Hmask, Nat.sub_diag. reflexivity. }
  rewrite Eb. cbn [obind]. do 5 f_equal. unfold all_items. clear. induction (seq 0 n_in) as [|i s IH]; [reflexivity|]. cbn [map concat flat_map]. rewrite flat_map_app, IH. reflexivity.
Qed.

(** What the items do to a cell: the products are subtracted. *)
Lemma items_value c v : eqm (2 ^ w) (fold_left (item_effect w c) all_items v)
  (v - zsum n_in (fun i => zsum l (fun j => sdigit w d (l - 1 - j) (nth i mask 0) * nth c (key_row i j) 0))).
Proof.
  assert (Hw : 0 <= w) by (pose proof Hd as (? & ? & ? & ?); nia).
  assert (G : forall k a v, eqm (2 ^ w) (fold_left (item_effect w c) (flat_map step_items (seq a k)) v)
     (v - zsum k (fun i => zsum l (fun j => sdigit w d (l - 1 - j) (nth (a + i) mask 0) * nth c (key_row (a + i) j) 0)))).
  { clear v. induction k as [|k IH]; intros a v; [apply eqm_eq; cbn [seq flat_map fold_left]; rewrite zsum_0; lia|].
    cbn [seq flat_map]. rewrite fold_left_app, IH. rewrite zsum_S_l, Nat.add_0_r.
    assert (Gs : eqm (2 ^ w) (fold_left (item_effect w c) (step_items a) v) (v - zsum l (fun j => sdigit w d (l - 1 - j) (nth a mask 0) * nth c (key_row a j) 0))).
    { unfold step_items. cbn [fold_left item_effect].
      rewrite <- (zsum_rev l (fun j => sdigit w d (l - 1 - j) (nth a mask 0) * nth c (key_row a j) 0)).
      assert (Gl : forall k q v, (q + k = l)%nat -> eqm (2 ^ w) (fold_left (item_effect w c) (map (fun q => Some (term_at a (l - q - 1) (digit_at a q))) (seq q k)) v)
        (v - zsum k (fun j => sdigit w d (q + j) (nth a mask 0) * nth c (key_row a (l - 1 - (q + j))) 0))).
      { clear. induction k as [|k IH]; intros q v Hq; [apply eqm_eq; cbn [seq map fold_left]; rewrite zsum_0; lia|]. cbn [seq map fold_left item_effect]. rewrite IH by lia. rewrite zsum_S_l, Nat.add_0_r.
        assert (E : eqm (2 ^ w) (wsub w v (term_at a (l - q - 1) (digit_at a q) c)) (v - sdigit w d q (nth a mask 0) * nth c (key_row a (l - 1 - q)) 0)).
        { unfold wsub, term_at, wmul. rewrite !eqm_mod. unfold digit_at, sdigit. rewrite sgn_eqm. apply eqm_eq. replace (l - q - 1)%nat with (l - 1 - q)%nat by lia. lia. }
        rewrite E. apply eqm_eq. rewrite (zsum_ext k (fun j => sdigit w d (q + S j) (nth a mask 0) * nth c (key_row a (l - 1 - (q + S j))) 0) (fun j => sdigit w d (S q + j) (nth a mask 0) * nth c (key_row a (l - 1 - (S q + j))) 0)); [lia|].
        intros j _. replace (q + S j)%nat with (S q + j)%nat by lia. reflexivity. }
      rewrite (Gl l 0%nat v) by lia. apply eqm_eq. f_equal. apply zsum_ext. intros j Hj. replace (l - 1 - (l - 1 - j))%nat with j by lia. reflexivity. }
    rewrite Gs. apply eqm_eq. rewrite (zsum_ext k _ (fun i => zsum l (fun j => sdigit w d (l - 1 - j) (nth (a + S i) mask 0) * nth c (key_row (a + S i) j) 0))); [lia|].
    intros i _. replace (S a + i)%nat with (a + S i)%nat by lia. reflexivity. }
  apply (G n_in 0%nat v).
Qed.
Lemma items_word c v : is_word w v -> is_word w (fold_left (item_effect w c) all_items v).
Proof.
  assert (Hw : 0 <= w) by (pose proof Hd as (? & ? & ? & ?); nia).
  generalize all_items. intros its. revert v. induction its as [|it its IH]; intros v Hv; [exact Hv|]. cbn [fold_left]. apply IH. destruct it; cbn; [apply wsub_word; auto|auto].
Qed.

(** The CPU *)
Lemma sub_mul_cell p n o r x : length o = n /\ Forall (is_word w) o -> length r = n /\ Forall (is_word w) r ->
  exists o', sub_element_mul p w o r x = Ret o' /\ (length o' = n /\ Forall (is_word w) o') /\
    forall c : nat, eqm (2 ^ w) (nth c o' 0) (nth c o 0 - x * nth c r 0).
Proof.
  assert (Hw : 0 <= w) by (pose proof Hd as (? & ? & ? & ?); nia).
  intros [Ho Hoa] [Hr Hra]. unfold sub_element_mul. rewrite ck_dim_eq_ok by congruence. cbn [obind].
  eexists. split; [reflexivity|]. rewrite zip_update_map2 by congruence. split.
  - split; [rewrite map2_length; lia|]. apply Forall_forall. intros e He. apply In_nth_error in He. destruct He as [i Hi].
    rewrite nth_error_map2 in Hi. destruct (nth_error o i), (nth_error r i); try discriminate. injection Hi as <-. apply wsub_word. assumption.
  - intros c. destruct (Nat.ltb_spec c n) as [Hc|Hc].
    + assert (En : nth c (map2 (fun x0 c0 => wsub w x0 (wmul w c0 x)) o r) 0 = wsub w (nth c o 0) (wmul w (nth c r 0) x)).
      { apply nth_error_nth. rewrite nth_error_map2, (nth_error_nth' o 0), (nth_error_nth' r 0) by lia. reflexivity. }
      rewrite En, wsub_eqm, wmul_eqm. apply eqm_eq. ring.
    + rewrite !nth_overflow by (try rewrite map2_length; lia). apply eqm_eq. ring.
Qed.
Lemma cpu_value p after : length after = S n_out -> is_word w body ->
  exists good, keyswitch_ciphertext p w b l n_out K after lwe_in = Ret good /\ length good = S n_out /\
    forall c, (c < S n_out)%nat -> nth c good 0 = fold_left (item_effect w c) all_items (if Nat.eqb c n_out then body else 0).
Proof.
  intros Ha Hb. assert (Hw : 0 <= w) by (pose proof Hd as (? & ? & ? & ?); nia). pose proof Hd as (H1 & H2 & H3 & H4).
  destruct (snoc_dec after _ Ha) as (mask0 & body0 & -> & Hm0).
  unfold keyswitch_ciphertext. rewrite !split_last_snoc. cbn [obind]. rewrite !ck_dim_eq_ok by congruence. cbn [obind].
  rewrite dec_new_ok by assumption. cbn [obind]. assert (Ed : Dec b l = d) by (destruct d; reflexivity). rewrite Ed.
  assert (Hz0 : is_word w 0) by (split; [lia|apply pow2_pos; lia]).
  destruct (ks_blocks_ok p w d Hd (sub_element_mul p w) (fun o => length o = S n_out /\ Forall (is_word w) o) (fun (c : nat) o => nth c o 0)
     ltac:(intros; apply sub_mul_cell; auto) [] K mask (map (fun _ => 0) mask0 ++ [body])) as (good & E & [Hgl Hgw] & P); auto.
  - congruence.
  - split; [rewrite app_length, map_length; cbn; lia|]. apply Forall_app. split; [|constructor; [assumption|constructor]].
    apply Forall_forall. intros x Hx. apply in_map_iff in Hx. destruct Hx as (y & <- & _). auto.
  - exists good. split; [exact E|]. split; [exact Hgl|]. intros c Hc.
    assert (Ev : nth c (map (fun _ => 0) mask0 ++ [body]) 0 = if Nat.eqb c n_out then body else 0).
    { destruct (Nat.eqb_spec c n_out) as [->|Hne].
      - rewrite app_nth2 by (rewrite map_length; lia). rewrite map_length, Hm0, Nat.sub_diag. reflexivity.
      - rewrite app_nth1 by (rewrite map_length; lia). clear. revert c. induction mask0 as [|x m IH]; intros [|c]; cbn; auto. }
    apply (eqm_small (2 ^ w)).
    + rewrite Forall_forall in Hgw. apply Hgw, nth_In. lia.
    + apply items_word. destruct (Nat.eqb c n_out); auto.
    + rewrite P, Ev, items_value, Hmask. reflexivity.
Qed.
End Code.
