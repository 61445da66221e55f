(** * C59: the keyswitch kernel of the CUDA backend *)
From Verif Require Import Base Word LweSpec LweModel LweProofs DecompModel DecompProofs KeyswitchModel
  CudaSpec CudaModel CudaFacts CudaTheorems CudaKsModel CudaKsProofs CudaKsFacts.

(** What is compared: [good] is the result of the CPU, [r] that of the GPU.  The mask is the same; the body is the same or it misses
    the body of the input. *)
Definition same_but_body (w : Z) (n_out : nat) (body : Z) (good r : list Z) : Prop :=
  length good = S n_out /\ length r = S n_out /\ firstn n_out r = firstn n_out good /\
  (nth n_out r 0 = nth n_out good 0 \/ nth n_out r 0 = (nth n_out good 0 - body) mod 2 ^ w).

Lemma nth_error_firstn_lt {A} : forall n (l : list A) i, (i < n)%nat -> nth_error (firstn n l) i = nth_error l i.
Proof. induction n as [|n IH]; intros l i H; [lia|]. destruct l; [destruct i; reflexivity|]. destruct i; [reflexivity|]. cbn. apply IH. lia. Qed.

Section Block.
Context (p : profile) (w b : Z) (l n_in n_out : nat) (ksk : list (list (list Z))).
Hypothesis Hd : dec_wf w (Dec b l).
Hypothesis Hlen : length ksk = n_in.
Hypothesis Hksk : Forall (fun block => length block = l /\ Forall (lwe_wf w n_out) block) ksk.
Hypothesis Hsmall : Z.of_nat n_in * Z.of_nat l * (Z.of_nat n_out + 1) < 2 ^ 31.
Hypothesis Hin : (0 < n_in)%nat.

Lemma block_run_ok : forall lwe_in shared after choices, lwe_wf w n_in lwe_in -> length shared = S n_out -> length after = S n_out ->
  exists good r, keyswitch_ciphertext p w b l n_out ksk after lwe_in = Ret good /\
    ks_block w b l n_in n_out (concat (concat ksk)) lwe_in choices shared (repeat 0 (S n_out)) = Ret r /\
    same_but_body w n_out (last lwe_in 0) good r /\ ((n_out mod 128 = 0)%nat -> r = good) /\
    ((n_out mod 128 <> 0)%nat -> choices = [] -> nth n_out r 0 = (nth n_out good 0 - last lwe_in 0) mod 2 ^ w).
Proof.
  intros lwe_in shared after choices [Hil Hiw] Hs Ha.
  destruct (snoc_dec lwe_in _ Hil) as (mask & body & -> & Hm). apply Forall_app in Hiw. destruct Hiw as [Hmw Hbw]. apply Forall_inv in Hbw. rewrite last_last.
  set (d := Dec b l) in *. destruct (cpu_value w d Hd n_in n_out ksk mask body Hlen Hksk Hm Hmw Hsmall p after Ha Hbw) as (good & Eg & Hgl & Hgv).
  exists good. pose proof Hd as (H1 & H2 & H3 & H4). cbn [base_log level_count d] in *.
  set (items := all_items w d n_in ksk mask) in *.
  assert (Hitems : items = None :: tl items).
  { unfold items, all_items. destruct n_in; [lia|]. reflexivity. }
  set (cells := ks_cells (S n_out)). set (R := fun t => flat_map (item_code (cells t)) (tl items) ++ out_code (cells t)).
  set (E := fun c v => fold_left (item_effect w c) items v).
  assert (HT : (0 < ideal_threads)%nat) by (unfold ideal_threads; lia).
  assert (HR : forall t c r s o, (t < ideal_threads)%nat -> In c (cells t) -> st_o (solo w (R t) (r, s, o)) c = E c (s c)).
  { intros t c r s o Ht Hc. unfold R. rewrite solo_app. unfold out_code. rewrite out_solo; auto; [|apply ks_cells_nodup]. rewrite items_solo; auto; [|apply ks_cells_nodup].
    unfold E. rewrite Hitems. reflexivity. }
  assert (HRi : forall t i c, (t < ideal_threads)%nat -> In i (R t) -> idx_of i = Some c -> In c (cells t)).
  { intros t i c _ Hi Hc. eapply code_idx; eauto. }
  assert (HRs : forall t, (t < ideal_threads)%nat -> syncs (R t) = syncs (R 0%nat)).
  { intros t _. unfold R. rewrite !code_syncs. reflexivity. }
  assert (Hcells : forall t c, (t < ideal_threads)%nat -> In c (cells t) <-> (c < S n_out /\ c mod ideal_threads = t)%nat).
  { intros t c Ht. apply ks_cells_spec. auto. }
  assert (Hcode : omap (ks_thread w b l n_in n_out (concat (concat ksk)) (mask ++ [body])) (seq 0 ideal_threads) = Ret (map (program n_out body cells R) (seq 0 ideal_threads))).
  { apply WordFacts.omap_ok. intros t Ht. apply in_seq in Ht. change b with (base_log d). change l with (level_count d). rewrite (thread_code w d Hd n_in n_out ksk mask body Hlen Hksk Hm Hmw Hsmall) by lia.
    f_equal. unfold program. cbn [app]. do 2 f_equal. fold items. rewrite Hitems at 1. cbn [flat_map item_code app]. reflexivity. }
  unfold ks_block. rewrite Hcode. cbn [obind]. rewrite map_map.
  set (k0 := Block (map (fun x => (program n_out body cells R x, 0)) (seq 0 ideal_threads)) shared (repeat 0 (S n_out))).
  assert (Hk0 : sched_inv w ideal_threads (S n_out) n_out body cells R E k0).
  { apply init_inv; auto. apply repeat_length. }
  destruct (run_inv w ideal_threads (S n_out) n_out body cells R E HT (Nat.lt_succ_diag_r n_out) Hcells HR HRi HRs _ choices k0 Hk0 (Nat.lt_succ_diag_r _)) as (k' & Erun & Hout).
  unfold k0 in Erun at 1. cbn [b_threads] in Erun. rewrite Erun. cbn [obind]. exists (b_out k'). destruct Hout as (Hlo & Hcell & Hz).
  assert (Ez : forall c, (c < S n_out)%nat -> nth c good 0 = E c (if Nat.eqb c n_out then body else 0)) by (intros; apply Hgv; auto).
  assert (Ebody : E n_out 0 = (nth n_out good 0 - body) mod 2 ^ w).
  { apply (WordFacts.eqm_small (2 ^ w)).
    - unfold E. apply (items_word w d Hd n_in n_out ksk mask Hlen Hm). split; [lia|]. apply WordFacts.pow2_pos. nia.
    - apply Z.mod_pos_bound. apply WordFacts.pow2_pos. nia.
    - rewrite WordFacts.eqm_mod, Ez by lia. rewrite Nat.eqb_refl. unfold E. subst items. rewrite !(items_value w d Hd n_in n_out ksk mask Hlen Hm). apply WordFacts.eqm_eq. lia. }
  repeat split; auto.
  - apply nth_error_ext. intros i. destruct (Nat.ltb_spec i n_out) as [Hi|Hi].
    + rewrite !nth_error_firstn_lt by lia. rewrite !(nth_error_nth' _ 0) by lia. f_equal. rewrite Hcell, Ez by lia. destruct (Nat.eqb_spec i n_out); [lia|reflexivity].
    + rewrite (proj2 (nth_error_None _ _)), (proj2 (nth_error_None _ _)); auto; rewrite firstn_length; lia.
  - rewrite <- Ebody. rewrite Ez, Nat.eqb_refl by lia. exact Hz.
  - intros H0. apply nth_error_ext. intros i. destruct (Nat.ltb_spec i (S n_out)) as [Hi|Hi].
    + rewrite !(nth_error_nth' _ 0) by lia. f_equal. rewrite Hcell, Ez by (auto; right; exact H0). reflexivity.
    + rewrite (proj2 (nth_error_None _ _)), (proj2 (nth_error_None _ _)); auto; lia.
  - intros H0 ->. rewrite <- Ebody. eapply (first_run w ideal_threads (S n_out) n_out body cells R E); eauto. unfold k0. eapply first_init; eauto.
Qed.

(** One ciphertext, in one block: whatever the order in which the threads run, and whatever shared memory contains, the block ends
    without a deadlock; it computes the mask the CPU computes, and the body too except that it may miss the body of the input. *)
Theorem C59_block : forall lwe_in shared after choices, lwe_wf w n_in lwe_in -> length shared = S n_out -> length after = S n_out ->
  exists good r, keyswitch_ciphertext p w b l n_out ksk after lwe_in = Ret good /\
    ks_block w b l n_in n_out (concat (concat ksk)) lwe_in choices shared (repeat 0 (S n_out)) = Ret r /\
    same_but_body w n_out (last lwe_in 0) good r.
Proof.
  intros lwe_in shared after choices H1 H2 H3. destruct (block_run_ok lwe_in shared after choices H1 H2 H3) as (good & r & E1 & E2 & E3 & _). eauto 6.
Qed.
(** When the dimension of the output is a multiple of 128, the number of threads, thread 0 writes the cell of the body itself before
    and the result is that of the CPU. *)
Theorem C59_block_multiple_of_128 : forall lwe_in shared after choices, lwe_wf w n_in lwe_in -> length shared = S n_out -> length after = S n_out ->
  (n_out mod 128 = 0)%nat ->
  exists good, keyswitch_ciphertext p w b l n_out ksk after lwe_in = Ret good /\
    ks_block w b l n_in n_out (concat (concat ksk)) lwe_in choices shared (repeat 0 (S n_out)) = Ret good.
Proof.
  intros lwe_in shared after choices H1 H2 H3 H0. destruct (block_run_ok lwe_in shared after choices H1 H2 H3) as (good & r & E1 & E2 & _ & E3 & _).
  rewrite (E3 H0) in E2. eauto.
Qed.
(** Otherwise it may not be: there is no barrier between the zeros and the body, and when thread 0 runs first its write of the body
    is overwritten with the zero of the thread the cell belongs to. *)
Theorem C59_block_any_dimension_refuted : forall lwe_in shared after, lwe_wf w n_in lwe_in -> length shared = S n_out -> length after = S n_out ->
  (n_out mod 128 <> 0)%nat -> last lwe_in 0 <> 0 ->
  exists choices good r, keyswitch_ciphertext p w b l n_out ksk after lwe_in = Ret good /\
    ks_block w b l n_in n_out (concat (concat ksk)) lwe_in choices shared (repeat 0 (S n_out)) = Ret r /\
    nth n_out r 0 = (nth n_out good 0 - last lwe_in 0) mod 2 ^ w /\ r <> good.
Proof.
  intros lwe_in shared after H1 H2 H3 H0 Hnz. exists []. destruct (block_run_ok lwe_in shared after [] H1 H2 H3) as (good & r & E1 & E2 & _ & _ & E3).
  exists good, r. specialize (E3 H0 eq_refl). repeat split; auto. intros ->.
  destruct H1 as [Hl Hw]. destruct (snoc_dec lwe_in _ Hl) as (m & x & -> & _). rewrite last_last in *. apply Forall_app in Hw. destruct Hw as [_ Hw]. apply Forall_inv in Hw.
  assert (Hx : x mod 2 ^ w = 0).
  { apply Z.mod_divide; [destruct Hw; lia|].
    assert (G : eqm (2 ^ w) (nth n_out good 0) (nth n_out good 0 - x)) by (rewrite E3 at 1; apply WordFacts.eqm_mod).
    apply WordFacts.eqm_divide in G. replace (nth n_out good 0 - (nth n_out good 0 - x)) with x in G by lia. exact G. }
  rewrite Z.mod_small in Hx by exact Hw. contradiction.
Qed.
End Block.
Print Assumptions C59_block.
Print Assumptions C59_block_multiple_of_128.
Print Assumptions C59_block_any_dimension_refuted.

(** A concrete case of the hypotheses: 4-bit words, one coefficient, b = 2, l = 1, and two schedules of the same block.  The
    input is (7, 3).  When thread 0 runs first the body is lost; when thread 1 writes its zero first, the result is right. *)
Definition ex_ksk : list (list (list Z)) := [[[9; 1]]].
Example C59_case : dec_wf 4 (Dec 2 1) /\ length ex_ksk = 1%nat /\ Forall (fun block => length block = 1%nat /\ Forall (lwe_wf 4 1) block) ex_ksk /\
  lwe_wf 4 1 [7; 3] /\ keyswitch_ciphertext Debug 4 2 1 1 ex_ksk [0; 0] [7; 3] = Ret [14; 1].
Proof.
  unfold ex_ksk, dec_wf, lwe_wf, is_word. cbn [base_log level_count length]. change (2 ^ 4) with 16.
  split; [lia|]. split; [reflexivity|]. split; [repeat constructor; lia|]. split; [split; [reflexivity|repeat constructor; lia]|]. vm_compute. reflexivity.
Qed.
Example C59_body_lost : ks_block 4 2 1 1 1 (concat (concat ex_ksk)) [7; 3] [] [11; 12] [0; 0] = Ret [14; 14].
Proof. vm_compute. reflexivity. Qed.
Example C59_body_kept : ks_block 4 2 1 1 1 (concat (concat ex_ksk)) [7; 3] [0; 1]%nat [11; 12] [0; 0] = Ret [14; 1].
Proof. vm_compute. reflexivity. Qed.

(** ** Vectors on several GPUs *)
Lemma omap_ex {A B} (f : A -> outcome B) (Q : A -> B -> Prop) : forall l, (forall a, In a l -> exists y, f a = Ret y /\ Q a y) -> exists ys, omap f l = Ret ys /\ Forall2 Q l ys.
Proof.
  induction l as [|a l IH]; intros H; [exists []; split; [reflexivity|constructor]|]. destruct (H a (or_introl eq_refl)) as (y & E & Hy).
  destruct IH as (ys & E' & Hys); [intros; apply H; right; auto|]. exists (y :: ys). cbn [omap]. rewrite E. cbn [obind]. rewrite E'. split; [reflexivity|constructor; auto].
Qed.
Lemma nth_chunk {A} : forall n (gr : list (list A)) i, Forall (fun c => length c = n) gr -> (i < length gr)%nat -> firstn n (skipn (i * n) (concat gr)) = nth i gr [].
Proof.
  intros n gr i H. revert i. induction H as [|c gr Hc H IH]; intros i Hi; [cbn in Hi; lia|]. cbn [concat]. destruct i as [|i].
  - cbn [Nat.mul skipn nth]. rewrite firstn_app, Hc, Nat.sub_diag, firstn_all2 by lia. cbn [firstn]. apply app_nil_r.
  - cbn [nth Nat.mul]. rewrite skipn_app, skipn_all2 by lia. cbn [app]. rewrite Hc. replace (n + i * n - n)%nat with (i * n)%nat by lia. apply IH. cbn in Hi. lia.
Qed.

Lemma choose_list {B} (Q : nat -> B -> Prop) d : forall n, (forall i, (i < n)%nat -> exists y, Q i y) -> exists ys, length ys = n /\ forall i, (i < n)%nat -> Q i (nth i ys d).
Proof.
  induction n as [|n IH]; intros H; [exists []; split; [reflexivity|lia]|]. destruct IH as (ys & Hl & Hy); [intros; apply H; lia|]. destruct (H n (Nat.lt_succ_diag_r n)) as (y & Qy).
  exists (ys ++ [y]). split; [rewrite app_length; cbn; lia|]. intros i Hi. destruct (Nat.eq_dec i n) as [->|].
  - rewrite app_nth2, Hl, Nat.sub_diag by lia. exact Qy.
  - rewrite app_nth1 by lia. apply Hy. lia.
Qed.

Section Vector.
Context (p : profile) (w b : Z) (l n_in n_out available count : nat) (max_shared : Z) (ksk : list (list (list Z))).
Hypothesis Hd : dec_wf w (Dec b l).
Hypothesis Hlen : length ksk = n_in.
Hypothesis Hksk : Forall (fun block => length block = l /\ Forall (lwe_wf w n_out) block) ksk.
Hypothesis Hsmall : Z.of_nat n_in * Z.of_nat l * (Z.of_nat n_out + 1) < 2 ^ 31.
Hypothesis Hin : (0 < n_in)%nat.
Hypothesis Ha : (0 < available)%nat.
Hypothesis Hac : (available <= count)%nat.
Hypothesis Hcount : Z.of_nat count < 2 ^ 31.
Hypothesis Hshared : w / 8 * (Z.of_nat n_out + 1) <= max_shared.

(** The relation between the ciphertext and the result on the GPU *)
Definition gpu_keyswitched (c r : list Z) : Prop :=
  exists good, keyswitch_ciphertext p w b l n_out ksk (repeat 0 (S n_out)) c = Ret good /\
    same_but_body w n_out (last c 0) good r /\ ((n_out mod 128 = 0)%nat -> r = good).

Lemma one_gpu : forall choices garbage out g, (forall s, length (garbage s) = S n_out) -> (0 < length g)%nat -> Z.of_nat (length g) < 2 ^ 31 ->
  Forall (lwe_wf w n_in) g -> length out = (length g * S n_out)%nat ->
  exists rs, host_keyswitch w max_shared choices garbage out (concat g) (concat (concat ksk)) n_in n_out b l (length g) = Ret (concat rs) /\ Forall2 gpu_keyswitched g rs.
Proof.
  intros choices garbage out g Hg Hpos Hlt Hwf Ho. unfold host_keyswitch.
  assert (Hsz : Forall (fun c => length c = S n_in) g) by (eapply Forall_impl; [|exact Hwf]; intros c [H _]; exact H).
  rewrite (concat_len (S n_in) g Hsz), Ho, !Nat.leb_refl. cbn [andb assert_].
  replace (Z.of_nat (S n_out)) with (Z.of_nat n_out + 1) by lia.
  destruct (Z.leb_spec 1 (Z.of_nat (length g))); [|lia]. destruct (Z.ltb_spec (Z.of_nat (length g)) (2 ^ 31)); [|lia]. destruct (Z.leb_spec (w / 8 * (Z.of_nat n_out + 1)) max_shared); [|lia].
  cbn [andb assert_ obind].
  destruct (omap_ex (fun s => ks_block w b l n_in n_out (concat (concat ksk)) (firstn (S n_in) (skipn (s * S n_in) (concat g))) (choices s) (garbage s) (repeat 0 (S n_out)))
    (fun s r => gpu_keyswitched (nth s g []) r) (seq 0 (length g))) as (rs & E & HF).
  - intros s Hs. apply in_seq in Hs. rewrite nth_chunk by (auto; lia). assert (Hc : lwe_wf w n_in (nth s g [])) by (rewrite Forall_forall in Hwf; apply Hwf, nth_In; lia).
    destruct (block_run_ok p w b l n_in n_out ksk Hd Hlen Hksk Hsmall Hin (nth s g []) (garbage s) (repeat 0 (S n_out)) (choices s) Hc (Hg s) (repeat_length _ _)) as (good & r & E1 & E2 & E3 & E4 & _).
    exists r. split; [exact E2|]. exists good. auto.
  - rewrite E. cbn [obind]. exists rs. rewrite skipn_all2 by lia. rewrite app_nil_r. split; [reflexivity|].
    clear - HF. assert (G : forall k, Forall2 (fun s r => gpu_keyswitched (nth s (skipn k g) []) r) (seq 0 (length (skipn k g))) rs -> Forall2 gpu_keyswitched (skipn k g) rs).
    { intros k. generalize (skipn k g). intros h. clear. revert rs. induction h as [|c h IH]; intros rs HF; [inversion HF; constructor|]. cbn [length seq] in HF.
      inversion HF as [|? ? ? ? H1 H2]; subst. constructor; [exact H1|]. apply IH. rewrite <- seq_shift in H2. clear - H2. revert H2. generalize (seq 0 (length h)). intros s. revert l'.
      induction s as [|a s IHs]; intros l' H; inversion H; subst; constructor; auto. }
    apply (G 0%nat HF).
Qed.

(** Every GPU keyswitches its share, for every schedule of its blocks: the results, one after the other, are keyswitched. *)
Theorem C59_vector : forall choices garbage outs vo ins cs, (forall g s, length (garbage g s) = S n_out) ->
  distributed available count (S n_out) outs vo -> Forall (lwe_wf w n_in) cs -> distributed available count (S n_in) ins (concat cs) ->
  exists outs' rs, execute_keyswitch w max_shared choices garbage available count n_in n_out b l outs ins (repeat (concat (concat ksk)) available) = Ret outs' /\
    Forall2 gpu_keyswitched cs rs /\ distributed available count (S n_out) outs' (concat rs).
Proof.
  intros choices garbage outs vo ins cs Hg Do Hcs Di.
  assert (Hsz : sized (S n_in) cs) by (eapply Forall_impl; [|exact Hcs]; intros c [H _]; exact H).
  destruct (regroup _ _ _ _ _ (Nat.lt_0_succ n_in) Hsz Di) as (gs & -> & <- & Hlg & Hgs & Hfg).
  assert (Hwf : Forall (Forall (lwe_wf w n_in)) gs).
  { clear - Hcs. induction gs as [|g gs IH]; [constructor|]. cbn [concat] in Hcs. apply Forall_app in Hcs. destruct Hcs. constructor; auto. }
  (* one GPU at a time *)
  assert (Hone : forall i out, (i < available)%nat -> nth_error outs i = Some out -> exists rs,
     host_keyswitch w max_shared (choices i) (garbage i) out (concat (nth i gs [])) (concat (concat ksk)) n_in n_out b l (share available count i) = Ret (concat rs) /\ Forall2 gpu_keyswitched (nth i gs []) rs).
  { intros i out Hi Ho. assert (Eg : nth_error gs i = Some (nth i gs [])) by (apply nth_error_nth'; lia). pose proof (Hgs _ _ Eg) as Hsh.
    destruct (distributed_nth _ _ _ _ _ i Do Hi) as (o' & Ho' & Hlo). assert (o' = out) by congruence. subst o'.
    pose proof (share_pos available count i Ha Hac). pose proof (share_le available count i Ha).
    rewrite <- Hsh. apply one_gpu; auto; try lia.
    - rewrite Forall_forall in Hwf. apply Hwf. eapply nth_error_In; eauto. }
  destruct (choose_list (fun i rs => forall out, nth_error outs i = Some out -> host_keyswitch w max_shared (choices i) (garbage i) out (concat (nth i gs [])) (concat (concat ksk)) n_in n_out b l (share available count i) = Ret (concat rs) /\ Forall2 gpu_keyswitched (nth i gs []) rs) [] available) as (rss & Hrl & Hrs).
  { intros i Hi. destruct (distributed_nth _ _ _ _ _ i Do Hi) as (o' & Ho' & _). destruct (Hone i o' Hi Ho') as (rs & E & H). exists rs. intros out Hout. assert (o' = out) by congruence. subst. auto. }
  assert (Hrs2 : forall i, (i < available)%nat -> Forall2 gpu_keyswitched (nth i gs []) (nth i rss [])).
  { intros i Hi. destruct (distributed_nth _ _ _ _ _ i Do Hi) as (o' & Ho' & _). destruct (Hrs i Hi o' Ho') as [_ H]. exact H. }
  exists (map (@concat Z) rss), (concat rss). split; [|split].
  - unfold execute_keyswitch. rewrite active_le by lia.
    pose proof (on_every_gpu_ret available count (fun i samples out => let! a := get (map (@concat Z) gs) i in let! k := get (repeat (concat (concat ksk)) available) i in
      host_keyswitch w max_shared (choices i) (garbage i) out a k n_in n_out b l (Z.to_nat samples)) (fun i => concat (nth i rss [])) available [] outs Ha) as R. cbn [app length Nat.add] in R.
    destruct Do as (Hlo & Hob & Hov). rewrite R.
    + rewrite skipn_all2, app_nil_r by lia. rewrite <- Hrl at 1. rewrite (map_seq_nth (@concat Z) [] rss). reflexivity.
    + lia.
    + intros i o Hi Ho. assert (Eg : nth_error gs i = Some (nth i gs [])) by (apply nth_error_nth'; lia).
      rewrite (get_some _ i (concat (nth i gs []))) by (rewrite nth_error_map, Eg; reflexivity). cbn [obind].
      rewrite (get_some _ i (concat (concat ksk))) by (apply nth_error_repeat; auto). cbn [obind].
      pose proof (share_le available count i Ha). rewrite u32_small by lia. rewrite Nat2Z.id. apply (Hrs i Hi o Ho).
  - assert (Hl2 : length gs = length rss) by lia. clear - Hrs2 Hl2 Hlg. assert (H : forall i, (i < length gs)%nat -> Forall2 gpu_keyswitched (nth i gs []) (nth i rss [])) by (intros; apply Hrs2; lia).
    clear Hrs2 Hlg. revert rss Hl2 H. induction gs as [|g gs IH]; intros [|r rss] Hl2 H; try discriminate; [constructor|]. cbn [concat].
    apply Forall2_app; [apply (H 0%nat); cbn; lia|]. apply IH; [cbn in Hl2; lia|]. intros i Hi. apply (H (S i)). cbn. lia.
  - apply ungroup; auto.
    + intros i gr Hi. assert (Hia : (i < available)%nat) by (rewrite <- Hrl; apply nth_error_Some; congruence). specialize (Hrs2 i Hia). rewrite (nth_error_nth _ _ _ Hi) in Hrs2.
      assert (Eg : nth_error gs i = Some (nth i gs [])) by (apply nth_error_nth'; lia). rewrite <- (Hgs _ _ Eg). symmetry. clear - Hrs2. induction Hrs2; cbn; auto.
    + apply Forall_forall. intros gr Hgr. apply In_nth_error in Hgr. destruct Hgr as [i Hi]. assert (Hia : (i < available)%nat) by (rewrite <- Hrl; apply nth_error_Some; congruence).
      specialize (Hrs2 i Hia). rewrite (nth_error_nth _ _ _ Hi) in Hrs2. clear - Hrs2. unfold sized. induction Hrs2 as [|c r cs' rs' (good & _ & (_ & Hl & _) & _) H IH]; constructor; auto.
Qed.
End Vector.
Print Assumptions C59_vector.
(** The hypotheses of the vector are those of the block and the ones of C58 : two ciphertexts on two GPUs *)
Example C59_vector_case : execute_keyswitch 4 65536 (fun g _ => match g with O => [] | _ => [0; 1] end)%nat (fun _ _ => [5; 6]) 2 2 1 1 2 1 [[0; 0]; [0; 0]] [[7; 3]; [7; 3]] (repeat [9; 1] 2) = Ret [[14; 14]; [14; 1]] /\
  distributed 2 2 2 [[7; 3]; [7; 3]] [7; 3; 7; 3].
Proof.
  split; [vm_compute; reflexivity|]. repeat split. intros i c. destruct i as [|[|i]]; cbn; try (intros [= <-]; reflexivity). destruct i; discriminate.
Qed.
