(** * C58: vectors on several GPUs *)
From Coq Require Import Permutation.
From Verif Require Import Base Word LweModel CudaSpec CudaModel CudaFacts.

(** ** The host code that distributes a vector *)

(** A vector of [count] samples is spread over the GPUs, at most one per sample: nothing is lost, duplicated or reordered, as long
    as the samples that are left over are fewer than an equal share. *)
Theorem C58_upload : forall available size count input, (0 < size)%nat -> (0 < available)%nat -> (0 < count)%nat ->
  length input = (count * size)%nat -> Z.of_nat (length input) < 2 ^ 32 ->
  (count mod (Nat.min available count) < count / Nat.min available count)%nat ->
  exists buffers, copy_to_gpus available size input = Ret buffers /\ distributed (Nat.min available count) count size buffers input.
Proof. exact upload_distributed. Qed.
Print Assumptions C58_upload.
(** 7 samples of 2 words on 3 GPUs: 2, 2 and 3 of them *)
Example C58_upload_case : copy_to_gpus 3 2 [1; 2; 3; 4; 5; 6; 7; 8; 9; 10; 11; 12; 13; 14] = Ret [[1; 2; 3; 4]; [5; 6; 7; 8]; [9; 10; 11; 12; 13; 14]] /\
  distributed 3 7 2 [[1; 2; 3; 4]; [5; 6; 7; 8]; [9; 10; 11; 12; 13; 14]] [1; 2; 3; 4; 5; 6; 7; 8; 9; 10; 11; 12; 13; 14].
Proof.
  split; [reflexivity|]. repeat split. intros i b. destruct i as [|[|[|i]]]; cbn; try (intros [= <-]; reflexivity). destruct i; discriminate.
Qed.

(** Otherwise the upload panics: there are more pieces than GPUs. *)
Theorem C58_upload_any_count_refuted : forall available size count input, (0 < size)%nat -> (0 < available)%nat -> (available <= count)%nat ->
  length input = (count * size)%nat -> (count / available <= count mod available)%nat -> copy_to_gpus available size input = Panic.
Proof.
  intros available size count input Hs Ha Hc Hl Hr. unfold copy_to_gpus.
  replace (length input / size)%nat with count by (rewrite Hl, Nat.div_mul; lia).
  rewrite active_le by lia. rewrite samples_share by auto. cbn [obind]. rewrite share_0 by auto.
  pose proof (share_sum available count Ha) as Hsum. set (q := (count / available)%nat) in *. set (r := (count mod available)%nat) in *.
  assert (Hq : (0 < q)%nat) by (subst q; apply Nat.div_str_pos; lia).
  set (k := (length input / (q * size))%nat). assert (Hqs : (0 < q * size)%nat) by (clear - Hq Hs; nia).
  pose proof (Nat.div_mod (length input) (q * size) ltac:(lia)) as D. fold k in D.
  pose proof (Nat.mod_upper_bound (length input) (q * size) ltac:(lia)) as B.
  destruct (cut (q * size) k input) as (cs & rem & E & Hcs & Hk & Hrem); [lia|].
  rewrite E, chunks_exact_ret; auto; [cbn [obind]|lia].
  apply upload_loop_too_many; [lia|]. rewrite Hk. cbn [Nat.add].
  assert ((S available) * (q * size) <= length input)%nat by (rewrite Hl, <- Hsum; clear - Hr; nia).
  apply Nat.le_succ_l. apply Nat.div_le_lower_bound; lia.
Qed.
Print Assumptions C58_upload_any_count_refuted.
(** 5 ciphertexts and 3 GPUs *)
Example C58_five_on_three : copy_to_gpus 3 2 [1; 2; 3; 4; 5; 6; 7; 8; 9; 10] = Panic.
Proof. reflexivity. Qed.

(** Every vector whose count the number of GPUs divides comes back as it was sent, in a new container or in an existing one. *)
Theorem C58_round_trip : forall available size count input output, (0 < size)%nat -> (0 < available)%nat -> (0 < count)%nat ->
  (count mod available = 0)%nat -> length input = (count * size)%nat -> length output = (count * size)%nat -> Z.of_nat (length input) < 2 ^ 32 ->
  (let! buffers := copy_to_gpus available size input in copy_from_gpus available size count buffers) = Ret input /\
  (let! buffers := copy_to_gpus available size input in discard_copy_from_gpus available size count buffers output) = Ret input.
Proof.
  intros available size count input output Hs Ha Hc Hd Hl Ho Hsmall.
  assert (Hq : (0 < count / available)%nat) by (pose proof (share_sum available count Ha); destruct (count / available)%nat; lia).
  assert (available <= count)%nat by (pose proof (share_sum available count Ha); clear - Hq H; nia).
  destruct (C58_upload available size count input) as (bs & E & D); auto; [rewrite Nat.min_l by lia; lia|].
  rewrite Nat.min_l in D by lia. rewrite E. cbn [obind].
  destruct (distributed_last _ _ _ _ _ Ha D) as (init & lst & -> & Hi & Hf & Hlst & Hv).
  assert (R : forall o, length o = (count * size)%nat -> discard_copy_from_gpus available size count (init ++ [lst]) o = Ret input).
  { intros o Ho'. rewrite download_distributed; auto; [|lia]. rewrite Hd in *. cbn [Nat.mul firstn]. rewrite app_nil_r, firstn_all2 by lia. congruence. }
  split; [unfold copy_from_gpus|]; apply R; auto. rewrite repeat_length. lia.
Qed.
Print Assumptions C58_round_trip.
Example C58_round_trip_case : (let! b := copy_to_gpus 2 2 [1; 2; 3; 4; 5; 6; 7; 8] in copy_from_gpus 2 2 4 b) = Ret [1; 2; 3; 4; 5; 6; 7; 8].
Proof. reflexivity. Qed.

(** Otherwise, although the upload keeps everything, what comes back ends with a second copy of the first samples of the last GPU
    in place of the samples that were left over. *)
Theorem C58_round_trip_any_count_refuted : forall available size count input, (0 < size)%nat -> (0 < available)%nat -> (available <= count)%nat ->
  length input = (count * size)%nat -> Z.of_nat (length input) < 2 ^ 32 -> (count mod available < count / available)%nat ->
  let q := (count / available)%nat in let r := (count mod available)%nat in
  (let! buffers := copy_to_gpus available size input in copy_from_gpus available size count buffers) =
    Ret (firstn (available * q * size) input ++ firstn (r * size) (skipn ((available - 1) * q * size) input)).
Proof.
  intros available size count input Hs Ha Hc Hl Hsmall Hr q r. subst q r.
  destruct (C58_upload available size count input) as (bs & E & D); auto; [lia|rewrite Nat.min_l by lia; lia|].
  rewrite Nat.min_l in D by lia. rewrite E. cbn [obind].
  destruct (distributed_last _ _ _ _ _ Ha D) as (init & lst & -> & Hi & Hf & Hlst & Hv).
  unfold copy_from_gpus. rewrite download_distributed; auto; [|rewrite repeat_length; lia]. f_equal. rewrite app_assoc. f_equal.
  - subst input. rewrite firstn_app, (concat_len _ _ Hf), Hi.
    replace (available * (count / available) * size - (available - 1) * (count / available * size))%nat with (count / available * size)%nat by (generalize (count / available)%nat; clear - Ha; intros q; destruct available as [|a]; [lia|]; rewrite Nat.sub_succ, Nat.sub_0_r; nia).
    rewrite (firstn_all2 (n := (available * (count / available) * size)%nat)); [reflexivity|]. rewrite (concat_len _ _ Hf), Hi. generalize (count / available)%nat. clear - Ha. intros q. destruct available as [|a]; [lia|]. rewrite Nat.sub_succ, Nat.sub_0_r. nia.
  - f_equal. subst input. rewrite skipn_app, (concat_len _ _ Hf), Hi. rewrite skipn_all2 by (rewrite (concat_len _ _ Hf), Hi; generalize (count / available)%nat; clear; intros q; nia).
    replace ((available - 1) * (count / available) * size - (available - 1) * (count / available * size))%nat with 0%nat by (generalize (count / available)%nat; clear; intros q; nia). reflexivity.
Qed.
Print Assumptions C58_round_trip_any_count_refuted.
(** 7 samples on 3 GPUs: the last one is lost. *)
Example C58_seven_on_three : (let! b := copy_to_gpus 3 1 [1; 2; 3; 4; 5; 6; 7] in copy_from_gpus 3 1 7 b) = Ret [1; 2; 3; 4; 5; 6; 5].
Proof. reflexivity. Qed.

(** With fewer samples than GPUs the upload works, one sample per GPU, but nothing can be done with the result: reading it back
    panics, and the operations launch an empty grid on the first GPU. *)
Theorem C58_fewer_samples_than_gpus_refuted : forall w sched available n count input, (0 < count < available)%nat ->
  length input = (count * S n)%nat -> Z.of_nat (length input) < 2 ^ 31 ->
  exists buffers, copy_to_gpus available (S n) input = Ret buffers /\ distributed count count (S n) buffers input /\
    copy_from_gpus available (S n) count buffers = Panic /\ execute_opposite w sched available n count buffers buffers = Panic.
Proof.
  intros w sched available n count input Hc Hl Hsmall.
  assert (Hmod : (count mod count = 0)%nat) by (apply Nat.mod_same; lia). assert (Hdiv : (count / count = 1)%nat) by (apply Nat.div_same; lia).
  destruct (C58_upload available (S n) count input) as (bs & E & D); try lia; [rewrite Nat.min_r by lia; lia|].
  rewrite Nat.min_r in D by lia. exists bs. split; [exact E|]. split; [exact D|].
  assert (H0 : (count / available = 0)%nat) by (apply Nat.div_small; lia).
  split.
  - unfold copy_from_gpus, discard_copy_from_gpus. rewrite samples_share by lia. cbn [obind]. rewrite share_0, H0 by lia. reflexivity.
  - unfold execute_opposite. rewrite active_min, Nat.min_r by lia. destruct count as [|c]; [lia|]. cbn [seq on_every_gpu].
    rewrite samples_share by lia. cbn [obind]. rewrite share_0, H0 by lia. destruct D as (Dl & _ & _). destruct bs as [|b bs]; [discriminate|].
    cbn [get nth_error obind]. unfold host_negation. reflexivity.
Qed.
Print Assumptions C58_fewer_samples_than_gpus_refuted.
Example C58_two_on_four : copy_to_gpus 4 2 [1; 2; 3; 4] = Ret [[1; 2]; [3; 4]] /\ copy_from_gpus 4 2 2 [[1; 2]; [3; 4]] = Panic.
Proof. split; reflexivity. Qed.

(** ** Groups of ciphertexts *)
Lemma concat_inj {A} : forall size (cs cs' : list (list A)), (0 < size)%nat -> Forall (fun x => length x = size) cs -> Forall (fun x => length x = size) cs' ->
  concat cs = concat cs' -> cs = cs'.
Proof.
  intros size cs cs' Hs H. revert cs'. induction H as [|x cs Hx H IH]; intros cs' H' E.
  - destruct H' as [|y cs' Hy]; [reflexivity|]. destruct y; [cbn in Hy; lia|discriminate].
  - destruct H' as [|y cs' Hy H']; [destruct x; [cbn in Hx; lia|discriminate]|]. cbn [concat] in E.
    assert (x = y /\ concat cs = concat cs') as [-> E'].
    { apply (f_equal (firstn size)) in E as E1. apply (f_equal (skipn size)) in E as E2.
      rewrite !firstn_app, !skipn_app in *. rewrite Hx, Hy, Nat.sub_diag in *. cbn [firstn skipn] in *.
      rewrite !firstn_all2, !app_nil_r in E1 by lia. rewrite !skipn_all2 in E2 by lia. auto. }
    f_equal. auto.
Qed.
Definition sized (size : nat) (cs : list (list Z)) : Prop := Forall (fun c => length c = size) cs.
Lemma regroup : forall g count size bs cs, (0 < size)%nat -> sized size cs -> distributed g count size bs (concat cs) ->
  exists gs, bs = map (@concat Z) gs /\ concat gs = cs /\ length gs = g /\ (forall i gr, nth_error gs i = Some gr -> length gr = share g count i) /\ Forall (sized size) gs.
Proof.
  intros g count size bs cs Hs Hcs (Hl & Hb & Hc).
  assert (H : exists gs, bs = map (@concat Z) gs /\ Forall (sized size) gs).
  { assert (Hf : Forall (fun b => exists k, length b = (k * size)%nat) bs).
    { apply Forall_forall. intros b Hin. apply In_nth_error in Hin. destruct Hin as [i Hi]. eexists. eapply Hb; eauto. }
    clear Hl Hb Hc. induction Hf as [|b bs [k Hk] Hf IH]; [exists []; split; auto|].
    destruct IH as (gs & -> & Hgs). destruct (cut size k b) as (xs & r & -> & Hxs & Hlen & Hr); [lia|].
    assert (r = []) as -> by (destruct r; [auto|cbn in Hr; lia]). exists (xs :: gs). cbn [map]. rewrite app_nil_r. split; auto. }
  destruct H as (gs & -> & Hgs). rewrite map_length in Hl. exists gs. repeat split; auto.
  - apply (concat_inj size); auto.
    + clear - Hgs. induction Hgs; cbn [concat]; [constructor|]. apply Forall_app. auto.
    + rewrite <- Hc. clear. induction gs as [|x gs IH]; cbn [concat map]; [reflexivity|]. rewrite concat_app, IH. reflexivity.
  - intros i gr Hi. specialize (Hb i (concat gr)). rewrite nth_error_map, Hi in Hb. specialize (Hb eq_refl).
    rewrite (concat_len size) in Hb. 2:{ rewrite Forall_forall in Hgs. apply Hgs. eapply nth_error_In; eauto. }
    clear - Hb Hs. nia.
Qed.
Lemma ungroup : forall g count size gs, length gs = g -> (forall i gr, nth_error gs i = Some gr -> length gr = share g count i) -> Forall (sized size) gs ->
  distributed g count size (map (@concat Z) gs) (concat (concat gs)).
Proof.
  intros g count size gs Hl Hn Hf. repeat split.
  - rewrite map_length. auto.
  - intros i b. rewrite nth_error_map. destruct (nth_error gs i) as [gr|] eqn:E; [|discriminate]. intros [= <-].
    rewrite (concat_len size). 2:{ rewrite Forall_forall in Hf. apply Hf. eapply nth_error_In; eauto. } rewrite (Hn _ _ E). reflexivity.
  - clear. induction gs as [|x gs IH]; cbn [concat map]; [reflexivity|]. rewrite concat_app, IH. reflexivity.
Qed.
Lemma map2_app {A B C} (f : A -> B -> C) : forall l m l' m', length l = length m -> map2 f (l ++ l') (m ++ m') = map2 f l m ++ map2 f l' m'.
Proof. induction l as [|a l IH]; intros [|b m] l' m' H; try discriminate; [reflexivity|]. cbn. f_equal. apply IH. cbn in H. lia. Qed.
Lemma map2_concat {A B C} (f : A -> B -> C) : forall gs ps, length gs = length ps ->
  (forall i g p, nth_error gs i = Some g -> nth_error ps i = Some p -> length g = length p) ->
  concat (map2 (map2 f) gs ps) = map2 f (concat gs) (concat ps).
Proof.
  induction gs as [|g gs IH]; intros [|p ps] Hl H; try discriminate; [reflexivity|]. cbn [map2 concat]. rewrite map2_app by (apply (H 0%nat); reflexivity).
  f_equal. apply IH; [cbn in Hl; lia|]. intros i. apply (H (S i)).
Qed.
Lemma map2_seq {A B C} (h : A -> B -> C) da db : forall gs ps, length gs = length ps ->
  map (fun i => h (nth i gs da) (nth i ps db)) (seq 0 (length gs)) = map2 h gs ps.
Proof.
  induction gs as [|g gs IH]; intros [|p ps] H; try discriminate; [reflexivity|]. cbn [length seq map map2 nth]. f_equal.
  rewrite <- seq_shift, map_map. apply IH. cbn in H. lia.
Qed.
Lemma map_seq_nth {A B} (h : A -> B) da : forall gs, map (fun i => h (nth i gs da)) (seq 0 (length gs)) = map h gs.
Proof. induction gs as [|g gs IH]; [reflexivity|]. cbn [length seq map nth]. f_equal. rewrite <- seq_shift, map_map. exact IH. Qed.
Lemma map_map2 {A B C D} (h : C -> D) (f : A -> B -> C) : forall l m, map h (map2 f l m) = map2 (fun a b => h (f a b)) l m.
Proof. induction l as [|a l IH]; intros [|b m]; cbn; auto. f_equal. auto. Qed.
Lemma map2_len {A B C} (f : A -> B -> C) : forall l m, length l = length m -> length (map2 f l m) = length l.
Proof. induction l as [|a l IH]; intros [|b m] H; try discriminate; cbn in *; auto. Qed.
Lemma map2_nth {A B C} (f : A -> B -> C) : forall l m i, nth_error (map2 f l m) i =
  match nth_error l i, nth_error m i with Some a, Some b => Some (f a b) | _, _ => None end.
Proof.
  induction l as [|a l IH]; intros [|b m] [|i]; cbn; auto. destruct (nth_error l i); auto.
Qed.

(** ** One GPU *)
Section OneGpu.
Context (w : Z) (sched : nat -> list nat) (n : nat).
Hypothesis Hsched : any_order sched.

Lemma index_small : forall i, Z.of_nat i < 2 ^ 31 -> i32 (Z.of_nat i) = Z.of_nat i /\ u32 (Z.of_nat i) = Z.of_nat i.
Proof. intros i H. split; [apply i32_small|apply u32_small]; lia. Qed.
Lemma entries_small : forall s, (0 < s)%nat -> Z.of_nat (s * S n) <= 2 ^ 31 - 512 ->
  i32 (u32 (Z.of_nat s) * i32 (u32 (Z.of_nat n) + 1)) = Z.of_nat (s * S n).
Proof.
  intros s Hs H. assert (Z.of_nat s <= Z.of_nat (s * S n) /\ Z.of_nat (S n) <= Z.of_nat (s * S n)) by (split; apply inj_le; clear - Hs; nia).
  rewrite !u32_small by lia. rewrite (i32_small (Z.of_nat n + 1)) by lia. rewrite i32_small; lia.
Qed.
Lemma nth_get : forall (l : list Z) i, (i < length l)%nat -> get l i = Ret (nth i l 0).
Proof. intros l i H. apply get_some. apply nth_error_nth'. auto. Qed.

Lemma negation_gpu : forall out a s, (0 < s)%nat -> length a = (s * S n)%nat -> length out = (s * S n)%nat -> Z.of_nat (s * S n) <= 2 ^ 31 - 512 ->
  host_negation w sched out a (u32 (Z.of_nat n)) (u32 (Z.of_nat s)) = Ret (map (wneg w) a).
Proof.
  intros out a s Hs Ha Ho Hz. unfold host_negation. rewrite entries_small by auto.
  rewrite (grid_words sched (s * S n) _ (fun i => wneg w (nth i a 0))); auto; [|lia|].
  - rewrite <- Ha. rewrite (map_seq_nth (wneg w) 0 a). reflexivity.
  - intros i Hi. unfold negation. destruct (index_small i Hi) as [-> ->]. rewrite (u32_small (Z.of_nat (s * S n))) by lia. rewrite Nat2Z.id.
    destruct (Nat.ltb_spec i (s * S n)), (Z.ltb_spec (Z.of_nat i) (Z.of_nat (s * S n))); try lia; [|reflexivity].
    rewrite nth_get by lia. reflexivity.
Qed.
Lemma addition_gpu : forall out a b s, (0 < s)%nat -> length a = (s * S n)%nat -> length b = (s * S n)%nat -> length out = (s * S n)%nat -> Z.of_nat (s * S n) <= 2 ^ 31 - 512 ->
  host_addition w sched out a b (u32 (Z.of_nat n)) (u32 (Z.of_nat s)) = Ret (map2 (wadd w) a b).
Proof.
  intros out a b s Hs Ha Hb Ho Hz. unfold host_addition. rewrite entries_small by auto.
  rewrite (grid_words sched (s * S n) _ (fun i => wadd w (nth i a 0) (nth i b 0))); auto; [|lia|].
  - rewrite <- Ha. rewrite (map2_seq (wadd w) 0 0 a b) by lia. reflexivity.
  - intros i Hi. unfold addition. destruct (index_small i Hi) as [-> ->]. rewrite (u32_small (Z.of_nat (s * S n))) by lia. rewrite Nat2Z.id.
    destruct (Nat.ltb_spec i (s * S n)), (Z.ltb_spec (Z.of_nat i) (Z.of_nat (s * S n))); try lia; [|reflexivity].
    rewrite !nth_get by lia. reflexivity.
Qed.

Lemma seq_from : forall k a, seq a k = map (fun i => i + a)%nat (seq 0 k).
Proof.
  induction k as [|k IH]; intros a; [reflexivity|]. cbn [seq map Nat.add]. f_equal. rewrite (IH (S a)), (IH 1%nat), map_map.
  apply map_ext. intros; lia.
Qed.
Lemma words_by_ciphertext (f : Z -> Z -> Z) : forall gr ss, sized (S n) gr -> length ss = length gr ->
  map (fun i => f (nth i (concat gr) 0) (nth (i / S n) ss 0)) (seq 0 (length gr * S n)) = concat (map2 (fun c s => map (fun x => f x s) c) gr ss).
Proof.
  intros gr ss H. revert ss. induction H as [|c gr Hc H IH]; intros [|s ss] Hl; try discriminate; [reflexivity|].
  cbn [length Nat.mul]. rewrite seq_app, map_app. cbn [map2 concat]. f_equal.
  - rewrite <- Hc at 1. rewrite <- (map_seq_nth (fun x => f x s) 0 c). apply map_ext_in. intros i Hi. apply in_seq in Hi.
    rewrite app_nth1 by lia. rewrite Nat.div_small by lia. reflexivity.
  - rewrite <- IH by (cbn in Hl; lia). cbn [Nat.add].
    rewrite (seq_from (length gr * S n) (S n)), map_map. apply map_ext. intros i. rewrite app_nth2 by lia. rewrite Hc. replace (i + S n - S n)%nat with i by lia.
    replace (i + S n)%nat with (i + 1 * S n)%nat by lia. rewrite Nat.div_add by lia. rewrite Nat.add_1_r. reflexivity.
Qed.
Lemma multiplication_gpu : forall out gr ss, (0 < length gr)%nat -> sized (S n) gr -> length ss = length gr -> length out = (length gr * S n)%nat -> Z.of_nat (length gr * S n) <= 2 ^ 31 - 512 ->
  host_cleartext_multiplication w sched out (concat gr) ss (u32 (Z.of_nat n)) (u32 (Z.of_nat (length gr))) = Ret (concat (map2 (fun c s => map (fun x => wmul w x s) c) gr ss)).
Proof.
  intros out gr ss Hg Hsz Hss Ho Hz. unfold host_cleartext_multiplication. rewrite entries_small by auto.
  rewrite (grid_words sched (length gr * S n) _ (fun i => wmul w (nth i (concat gr) 0) (nth (i / S n) ss 0))); auto; [|lia|].
  - f_equal. apply words_by_ciphertext; auto.
  - intros i Hi. unfold cleartext_multiplication. destruct (index_small i Hi) as [-> Hu]. rewrite Hu.
    rewrite (u32_small (Z.of_nat (length gr * S n))) by lia. rewrite Nat2Z.id.
    destruct (Nat.ltb_spec i (length gr * S n)) as [Hlt|], (Z.ltb_spec (Z.of_nat i) (Z.of_nat (length gr * S n))); try lia; [|reflexivity].
    rewrite nth_get by (rewrite (concat_len (S n)) by auto; lia). cbn [obind].
    assert (Hn : Z.of_nat (S n) <= Z.of_nat (length gr * S n)) by (apply inj_le; clear - Hg; nia).
    rewrite !(u32_small (Z.of_nat n)) by lia. rewrite u32_small by lia. replace (Z.of_nat n + 1) with (Z.of_nat (S n)) by lia. rewrite <- Nat2Z.inj_div.
    assert (Hdiv : (i / S n < length gr)%nat) by (apply Nat.div_lt_upper_bound; lia).
    assert (Hle : Z.of_nat (i / S n) <= Z.of_nat i) by (apply inj_le, Nat.div_le_upper_bound; [lia|]; clear; nia).
    assert (Hnn : 0 <= Z.of_nat (i / S n) < 2 ^ 31) by (split; [apply Nat2Z.is_nonneg|eapply Z.le_lt_trans; eauto]).
    rewrite (i32_small _ Hnn). rewrite Nat2Z.id. rewrite nth_get by (rewrite Hss; exact Hdiv). reflexivity.
Qed.

Lemma nth_concat : forall gr i j, sized (S n) gr -> (j < S n)%nat -> (i < length gr)%nat -> nth_error (concat gr) (i * S n + j) = nth_error (nth i gr []) j.
Proof.
  intros gr i j H Hj. revert i. induction H as [|c gr Hc H IH]; intros i Hi; [cbn in Hi; lia|]. cbn [concat]. destruct i as [|i].
  - cbn [nth Nat.mul Nat.add]. rewrite nth_error_app1; auto. lia.
  - cbn [nth Nat.mul]. rewrite nth_error_app2 by lia. rewrite Hc. replace (S n + i * S n + j - S n)%nat with (i * S n + j)%nat by lia. apply IH. cbn in Hi. lia.
Qed.
Lemma plaintext_gpu : forall out gr ms, (0 < length gr)%nat -> sized (S n) gr -> length ms = length gr -> length out = (length gr * S n)%nat -> Z.of_nat (length gr * S n) <= 2 ^ 31 - 512 ->
  host_addition_plaintext w sched out (concat gr) ms (u32 (Z.of_nat n)) (u32 (Z.of_nat (length gr))) = Ret (concat (map2 (fun c m => removelast c ++ [wadd w (last c 0) m]) gr ms)).
Proof.
  intros out gr ms Hg Hsz Hms Ho Hz. unfold host_addition_plaintext.
  assert (Hn : Z.of_nat (S n) <= Z.of_nat (length gr * S n) /\ Z.of_nat (length gr) <= Z.of_nat (length gr * S n)) by (split; apply inj_le; clear - Hg; nia).
  assert (Hlc : length (concat gr) = (length gr * S n)%nat) by (apply concat_len; auto).
  rewrite !(u32_small (Z.of_nat n)), !(u32_small (Z.of_nat (length gr))) by lia. rewrite (u32_small (Z.of_nat n + 1)) by lia.
  replace ((Z.of_nat n + 1) * Z.of_nat (length gr)) with (Z.of_nat (length gr * S n)) by lia. rewrite u32_small by lia. rewrite Nat2Z.id.
  unfold from_device. destruct (Nat.leb_spec (length gr * S n) (length (concat gr))); [|lia]. cbn [obind].
  destruct (Nat.leb_spec (length gr * S n) (length out)); [|lia]. cbn [obind]. rewrite firstn_all2, skipn_all2, app_nil_r by lia.
  rewrite (i32_small (Z.of_nat (length gr))) by lia.
  set (v := fun i => wadd w (last (nth i gr []) 0) (nth i ms 0)).
  assert (Hlast : forall i, (i < length gr)%nat -> nth_error (concat gr) (i * S n + n) = Some (last (nth i gr []) 0)).
  { intros i Hi. rewrite nth_concat by (auto; lia). assert (L : length (nth i gr []) = S n).
    { unfold sized in Hsz. rewrite Forall_forall in Hsz. apply Hsz. apply nth_In. auto. }
    destruct (exists_last (l := nth i gr [])) as (x & y & E); [intros E; rewrite E in L; discriminate|].
    rewrite E in *. rewrite last_last. rewrite app_length in L. cbn in L. rewrite nth_error_app2 by lia. replace (n - length x)%nat with 0%nat by lia. reflexivity. }
  destruct (grid_scatter sched (Z.of_nat (length gr)) (plaintext_addition w (concat gr) ms (Z.of_nat n) (Z.of_nat (length gr)))
    (fun i => if Nat.ltb i (length gr) then Some ((i * S n + n)%nat, v i) else None) (concat gr)) as (o & E & Hlen & Hw & Hu); auto.
  - lia.
  - intros i Hi. unfold plaintext_addition. destruct (index_small i Hi) as [Hi' Hu]. rewrite !Hi', Hu. rewrite (u32_small (Z.of_nat (length gr))) by lia.
    destruct (Nat.ltb_spec i (length gr)) as [Hlt|], (Z.ltb_spec (Z.of_nat i) (Z.of_nat (length gr))); try lia; [|reflexivity].
    replace (Z.of_nat i * (Z.of_nat n + 1) + Z.of_nat n) with (Z.of_nat (i * S n + n)) by lia.
    assert (i * S n + n < length gr * S n)%nat by (clear - Hlt; nia).
    rewrite i32_small by lia. rewrite !Nat2Z.id. rewrite (get_some _ _ _ (Hlast i Hlt)). cbn [obind]. rewrite nth_get by lia. reflexivity.
  - intros i Hi. destruct (Nat.ltb_spec i (length gr)); [lia|reflexivity].
  - intros i j x. destruct (Nat.ltb_spec i (length gr)) as [Hlt|]; [|discriminate]. intros [= <- <-]. rewrite Hlc. clear - Hlt. nia.
  - intros i i' j x x'. destruct (Nat.ltb_spec i (length gr)); [|discriminate]. destruct (Nat.ltb_spec i' (length gr)); [|discriminate].
    intros [= <- _] [= E _]. clear - E. nia.
  - rewrite E. f_equal. apply nth_error_ext. intros p.
    assert (Hsz' : sized (S n) (map2 (fun c m => removelast c ++ [wadd w (last c 0) m]) gr ms)).
    { apply Forall_forall. intros x Hx. apply In_nth_error in Hx. destruct Hx as [i Hi]. rewrite map2_nth in Hi.
      destruct (nth_error gr i) as [c|] eqn:Ec; [|discriminate]. destruct (nth_error ms i); [|discriminate]. injection Hi as <-.
      unfold sized in Hsz. rewrite Forall_forall in Hsz. apply nth_error_In in Ec. apply Hsz in Ec.
      destruct (exists_last (l := c)) as (x & y & E'); [intros ->; discriminate|]. subst c. rewrite removelast_last, app_length in *. cbn in *. lia. }
    assert (Hml : length (map2 (fun c m => removelast c ++ [wadd w (last c 0) m]) gr ms) = length gr) by (apply map2_len; lia).
    destruct (Nat.ltb_spec p (length gr * S n)) as [Hp|Hp].
    + pose proof (Nat.div_mod p (S n) ltac:(lia)) as Dp. pose proof (Nat.mod_upper_bound p (S n) ltac:(lia)) as Bp.
      set (i := (p / S n)%nat) in *. set (j := (p mod S n)%nat) in *. clearbody i j.
      assert (Hi : (i < length gr)%nat) by (clear - Dp Bp Hp; nia). assert (p = i * S n + j)%nat as -> by lia.
      rewrite nth_concat by (auto; lia).
      assert (Enth : nth i (map2 (fun c m => removelast c ++ [wadd w (last c 0) m]) gr ms) [] = removelast (nth i gr []) ++ [wadd w (last (nth i gr []) 0) (nth i ms 0)]).
      { apply nth_error_nth. rewrite map2_nth. rewrite (nth_error_nth' gr []) by auto. rewrite (nth_error_nth' ms 0) by lia. reflexivity. }
      rewrite Enth. assert (L : length (nth i gr []) = S n) by (unfold sized in Hsz; rewrite Forall_forall in Hsz; apply Hsz, nth_In; auto).
      pose proof (nth_concat gr i j Hsz Bp Hi) as Hg'.
      destruct (exists_last (l := nth i gr [])) as (x & y & E'); [intros E'; rewrite E' in L; discriminate|].
      rewrite E' in *. rewrite removelast_last, last_last. rewrite app_length in L. cbn in L.
      destruct (Nat.eqb_spec j n) as [->|Hne].
      * rewrite (Hw i (i * S n + n)%nat (v i)). 2:{ destruct (Nat.ltb_spec i (length gr)); [reflexivity|lia]. }
        rewrite nth_error_app2 by lia. replace (n - length x)%nat with 0%nat by lia. unfold v. rewrite E', last_last. reflexivity.
      * rewrite Hu.
        -- rewrite Hg', !nth_error_app1 by lia. reflexivity.
        -- intros i' x'. destruct (Nat.ltb_spec i' (length gr)); [|discriminate]. intros [= E'' _]. clear - E'' Hne Bp.
           destruct (lt_eq_lt_dec i i') as [[L|L]|L]; [assert (i * S n + S n <= i' * S n)%nat by nia|subst i'|assert (i' * S n + S n <= i * S n)%nat by nia]; lia.
    + transitivity (@None Z); [apply nth_error_None; lia|]. symmetry. apply nth_error_None. rewrite (concat_len (S n)); auto. lia.
Qed.
End OneGpu.

(** ** The operations on vectors that are on the GPUs: any number of samples, any order of the threads of every GPU *)

Lemma share_pos : forall g count i, (0 < g)%nat -> (g <= count)%nat -> (0 < share g count i)%nat.
Proof. intros g count i Hg Hc. unfold share. assert (0 < count / g)%nat by (apply Nat.div_str_pos; lia). lia. Qed.
Lemma share_le : forall g count i, (0 < g)%nat -> (share g count i <= count)%nat.
Proof.
  intros g count i Hg. pose proof (share_sum g count Hg). unfold share.
  set (q := (count / g)%nat) in *. set (r := (count mod g)%nat) in *. clearbody q r.
  assert (q <= g * q)%nat by (clear - Hg; nia). destruct (Nat.eqb i (g - 1)); lia.
Qed.
Lemma distributed_nth : forall g count size bs v i, distributed g count size bs v -> (i < g)%nat ->
  exists b, nth_error bs i = Some b /\ length b = (share g count i * size)%nat.
Proof.
  intros g count size bs v i (Hl & Hb & _) Hi. destruct (nth_error bs i) as [b|] eqn:E; [|apply nth_error_None in E; lia]. exists b. eauto.
Qed.

Section Operations.
Context (w : Z) (sched : nat -> nat -> list nat) (available n count : nat).
Hypothesis Hsched : forall gpu, any_order (sched gpu).
Hypothesis Ha : (0 < available)%nat.
Hypothesis Hac : (available <= count)%nat.
Hypothesis Hsmall : Z.of_nat (count * S n) <= 2 ^ 31 - 512.

Lemma share_small : forall i, Z.of_nat (share available count i * S n) <= 2 ^ 31 - 512.
Proof. intros i. pose proof (share_le available count i Ha). assert (share available count i * S n <= count * S n)%nat by (clear - H; nia). lia. Qed.

Theorem C58_opposite : forall outs vo ins cs, distributed available count (S n) outs vo -> sized (S n) cs -> distributed available count (S n) ins (concat cs) ->
  exists outs', execute_opposite w sched available n count outs ins = Ret outs' /\
    distributed available count (S n) outs' (concat (map (map (fun x => (- x) mod 2 ^ w)) cs)).
Proof.
  intros outs vo ins cs Do Hcs Di. destruct (regroup _ _ _ _ _ (Nat.lt_0_succ n) Hcs Di) as (gs & -> & <- & Hlg & Hgs & Hfg).
  exists (map (@concat Z) (map (map (map (wneg w))) gs)). split.
  - unfold execute_opposite. rewrite active_le by lia.
    pose proof (on_every_gpu_ret available count (fun i samples out => let! a := get (map (@concat Z) gs) i in host_negation w (sched i) out a (u32 (Z.of_nat n)) samples)
      (fun i => map (wneg w) (concat (nth i gs []))) available [] outs Ha) as R. cbn [app length Nat.add] in R.
    rewrite R.
    + destruct Do as (Hlo & _ & _). rewrite skipn_all2, app_nil_r by lia. rewrite <- Hlg at 1. rewrite (map_seq_nth (fun g => map (wneg w) (concat g)) [] gs).
      rewrite !map_map. f_equal. apply map_ext. intros g. rewrite concat_map. reflexivity.
    + destruct Do as (Hlo & _ & _). lia.
    + intros i o Hi Ho. destruct (distributed_nth _ _ _ _ _ i Do Hi) as (o' & Ho' & Hlo). assert (o' = o) by congruence. subst o'.
      assert (Eg : nth_error gs i = Some (nth i gs [])) by (apply nth_error_nth'; lia).
      rewrite (get_some _ _ (concat (nth i gs []))) by (rewrite nth_error_map, Eg; reflexivity). cbn [obind].
      apply negation_gpu; auto; [apply share_pos; lia| |apply share_small].
      rewrite (concat_len (S n)). { rewrite (Hgs _ _ Eg). reflexivity. } rewrite Forall_forall in Hfg. apply Hfg. eapply nth_error_In; eauto.
  - rewrite (concat_map (map (fun x => (- x) mod 2 ^ w)) gs). apply ungroup.
    + rewrite map_length. auto.
    + intros i gr. rewrite nth_error_map. destruct (nth_error gs i) eqn:E; [|discriminate]. intros [= <-]. rewrite map_length. eauto.
    + apply Forall_map. eapply Forall_impl; [|exact Hfg]. intros g Hg. apply Forall_map. eapply Forall_impl; [|exact Hg]. cbn. intros c Hc. rewrite map_length. auto.
Qed.

(** Two operands, the second of [size2] words per sample *)
Lemma binary_op {B} (flat : list B -> list Z) (F : list Z -> B -> list Z) (host : (nat -> list nat) -> list Z -> list Z -> list Z -> Z -> Z -> outcome (list Z)) :
  forall outs vo (gs : list (list (list Z))) (ps : list (list B)),
  (forall s out g p, any_order s -> (0 < length g)%nat -> sized (S n) g -> length p = length g -> In p ps -> length out = (length g * S n)%nat -> Z.of_nat (length g * S n) <= 2 ^ 31 - 512 ->
     host s out (concat g) (flat p) (u32 (Z.of_nat n)) (u32 (Z.of_nat (length g))) = Ret (concat (map2 F g p)) /\ sized (S n) (map2 F g p)) ->
  distributed available count (S n) outs vo ->
  length gs = available -> (forall i gr, nth_error gs i = Some gr -> length gr = share available count i) -> Forall (sized (S n)) gs ->
  length ps = available -> (forall i p, nth_error ps i = Some p -> length p = share available count i) ->
  exists outs', on_every_gpu available count (fun i samples out => let! a := get (map (@concat Z) gs) i in let! b := get (map flat ps) i in host (sched i) out a b (u32 (Z.of_nat n)) samples)
      (seq 0 (number_of_active_gpus available count)) outs = Ret outs' /\
    distributed available count (S n) outs' (concat (map2 F (concat gs) (concat ps))).
Proof.
  intros outs vo gs ps Hhost Do Hlg Hgs Hfg Hlp Hps.
  assert (Hpair : forall i g p, nth_error gs i = Some g -> nth_error ps i = Some p -> length p = length g) by (intros i g p E1 E2; rewrite (Hgs _ _ E1), (Hps _ _ E2); reflexivity).
  assert (Hg1 : forall i, (i < available)%nat -> exists g p, nth_error gs i = Some g /\ nth_error ps i = Some p /\ sized (S n) g).
  { intros i Hi. destruct (nth_error gs i) as [g|] eqn:E1; [|apply nth_error_None in E1; lia]. destruct (nth_error ps i) as [p|] eqn:E2; [|apply nth_error_None in E2; lia].
    exists g, p. repeat split; auto. rewrite Forall_forall in Hfg. apply Hfg. eapply nth_error_In; eauto. }
  exists (map (@concat Z) (map2 (map2 F) gs ps)). split.
  - rewrite active_le by lia.
    pose proof (on_every_gpu_ret available count (fun i samples out => let! a := get (map (@concat Z) gs) i in let! b := get (map flat ps) i in host (sched i) out a b (u32 (Z.of_nat n)) samples)
      (fun i => concat (map2 F (nth i gs []) (nth i ps []))) available [] outs Ha) as R. cbn [app length Nat.add] in R.
    rewrite R.
    + destruct Do as (Hlo & _ & _). rewrite skipn_all2, app_nil_r by lia. rewrite <- Hlg at 1. rewrite (map2_seq (fun g p => concat (map2 F g p)) [] [] gs ps) by lia.
      rewrite map_map2. reflexivity.
    + destruct Do as (Hlo & _ & _). lia.
    + intros i o Hi Ho. destruct (distributed_nth _ _ _ _ _ i Do Hi) as (o' & Ho' & Hlo). assert (o' = o) by congruence. subst o'.
      destruct (Hg1 i Hi) as (g & p & E1 & E2 & Hsz).
      rewrite (get_some _ _ (concat g)) by (rewrite nth_error_map, E1; reflexivity). cbn [obind].
      rewrite (get_some _ _ (flat p)) by (rewrite nth_error_map, E2; reflexivity). cbn [obind].
      rewrite (nth_error_nth _ _ _ E1), (nth_error_nth _ _ _ E2). rewrite <- (Hgs _ _ E1) in *.
      apply Hhost; auto.
      * rewrite (Hgs _ _ E1). apply share_pos; lia.
      * eauto.
      * eapply nth_error_In; eauto.
      * rewrite (Hgs _ _ E1). apply share_small.
  - rewrite <- map2_concat. apply ungroup.
    + rewrite map2_len; lia.
    + intros i gr. rewrite map2_nth. destruct (nth_error gs i) as [g|] eqn:E1; [|discriminate]. destruct (nth_error ps i) as [p|] eqn:E2; [|discriminate]. intros [= <-].
      rewrite map2_len; [eauto|]. symmetry. eauto.
    + apply Forall_forall. intros x Hx. apply In_nth_error in Hx. destruct Hx as [i Hi]. rewrite map2_nth in Hi.
      destruct (nth_error gs i) as [g|] eqn:E1; [|discriminate]. destruct (nth_error ps i) as [p|] eqn:E2; [|discriminate]. injection Hi as <-.
      assert (Hlt : (i < available)%nat) by (rewrite <- Hlg; apply nth_error_Some; congruence).
      apply (Hhost (sched i) (repeat 0 (length g * S n)) g p); auto.
      * rewrite (Hgs _ _ E1). apply share_pos; lia.
      * rewrite Forall_forall in Hfg. apply Hfg. eapply nth_error_In; eauto.
      * eauto.
      * eapply nth_error_In; eauto.
      * apply repeat_length.
      * rewrite (Hgs _ _ E1). apply share_small.
    + lia.
    + intros i g p E1 E2. symmetry. eauto.
Qed.

Theorem C58_addition : forall outs vo ins_1 ins_2 cs_1 cs_2, distributed available count (S n) outs vo -> sized (S n) cs_1 -> sized (S n) cs_2 ->
  distributed available count (S n) ins_1 (concat cs_1) -> distributed available count (S n) ins_2 (concat cs_2) ->
  exists outs', execute_addition w sched available n count outs ins_1 ins_2 = Ret outs' /\
    distributed available count (S n) outs' (concat (map2 (map2 (fun x y => (x + y) mod 2 ^ w)) cs_1 cs_2)).
Proof.
  intros outs vo ins_1 ins_2 cs_1 cs_2 Do H1 H2 D1 D2.
  destruct (regroup _ _ _ _ _ (Nat.lt_0_succ n) H1 D1) as (gs & -> & <- & Hlg & Hgs & Hfg).
  destruct (regroup _ _ _ _ _ (Nat.lt_0_succ n) H2 D2) as (ps & -> & <- & Hlp & Hps & Hfp).
  apply (binary_op (@concat Z) (map2 (wadd w)) (host_addition w)  outs vo gs ps); auto.
  intros s out g p Hs Hg Hsz Hp Hin Ho Hsm. rewrite Forall_forall in Hfp. specialize (Hfp p Hin). split.
  - rewrite (addition_gpu w s n Hs out (concat g) (concat p) (length g)); auto.
    + f_equal. clear - Hsz Hfp Hp. revert p Hp Hfp. induction Hsz as [|c g Hc Hsz IH]; intros [|d p] Hp Hfp; try discriminate; [reflexivity|].
      apply Forall_cons_iff in Hfp. destruct Hfp as [Hd Hfp]. cbn [concat map2]. rewrite map2_app by congruence. f_equal. apply IH; auto.
    + apply concat_len; auto.
    + rewrite (concat_len (S n)); auto.
  - apply Forall_forall. intros x Hx. apply In_nth_error in Hx. destruct Hx as [i Hi]. rewrite map2_nth in Hi.
    destruct (nth_error g i) as [c|] eqn:E1; [|discriminate]. destruct (nth_error p i) as [d|] eqn:E2; [|discriminate]. injection Hi as <-.
    unfold sized in *. rewrite Forall_forall in Hsz, Hfp. apply nth_error_In in E1, E2. rewrite map2_len; auto. rewrite (Hsz _ E1), (Hfp _ E2). reflexivity.
Qed.

Lemma regroup_1 : forall g bs ms, distributed g count 1 bs ms -> bs = map (fun x => x) bs /\ concat bs = ms /\ length bs = g /\ (forall i b, nth_error bs i = Some b -> length b = share g count i).
Proof. intros g bs ms (Hl & Hb & Hc). rewrite map_id. repeat split; auto. intros i b Hi. rewrite (Hb _ _ Hi). lia. Qed.

Theorem C58_plaintext_addition : forall outs vo ins plaintexts cs ms, distributed available count (S n) outs vo -> sized (S n) cs ->
  distributed available count (S n) ins (concat cs) -> distributed available count 1 plaintexts ms ->
  exists outs', execute_plaintext_addition w sched available n count outs ins plaintexts = Ret outs' /\
    distributed available count (S n) outs' (concat (map2 (fun c m => removelast c ++ [(last c 0 + m) mod 2 ^ w]) cs ms)).
Proof.
  intros outs vo ins plaintexts cs ms Do H1 D1 D2.
  destruct (regroup _ _ _ _ _ (Nat.lt_0_succ n) H1 D1) as (gs & -> & <- & Hlg & Hgs & Hfg).
  destruct (regroup_1 _ _ _ D2) as (_ & <- & Hlp & Hps).
  pose proof (binary_op (fun x => x) (fun c m => removelast c ++ [wadd w (last c 0) m]) (host_addition_plaintext w) outs vo gs plaintexts) as R. rewrite map_id in R. apply R; auto.
  intros s out g p Hs Hg Hsz Hp Hin Ho Hsm. split.
  - apply plaintext_gpu; auto.
  - apply Forall_forall. intros x Hx. apply In_nth_error in Hx. destruct Hx as [i Hi]. rewrite map2_nth in Hi.
    destruct (nth_error g i) as [c|] eqn:E1; [|discriminate]. destruct (nth_error p i); [|discriminate]. injection Hi as <-.
    unfold sized in *. rewrite Forall_forall in Hsz. apply nth_error_In in E1. apply Hsz in E1.
    destruct (exists_last (l := c)) as (x & y & E'); [intros ->; discriminate|]. subst c. rewrite removelast_last, app_length in *. cbn in *. lia.
Qed.

Theorem C58_cleartext_multiplication : forall outs vo ins cleartexts cs ss, distributed available count (S n) outs vo -> sized (S n) cs ->
  distributed available count (S n) ins (concat cs) -> distributed available count 1 cleartexts ss ->
  exists outs', execute_cleartext_multiplication w sched available n count outs ins cleartexts = Ret outs' /\
    distributed available count (S n) outs' (concat (map2 (fun c s => map (fun x => (x * s) mod 2 ^ w) c) cs ss)).
Proof.
  intros outs vo ins cleartexts cs ss Do H1 D1 D2.
  destruct (regroup _ _ _ _ _ (Nat.lt_0_succ n) H1 D1) as (gs & -> & <- & Hlg & Hgs & Hfg).
  destruct (regroup_1 _ _ _ D2) as (_ & <- & Hlp & Hps).
  pose proof (binary_op (fun x => x) (fun c s => map (fun x => wmul w x s) c) (host_cleartext_multiplication w) outs vo gs cleartexts) as R. rewrite map_id in R. apply R; auto.
  intros s out g p Hs Hg Hsz Hp Hin Ho Hsm. split.
  - apply multiplication_gpu; auto.
  - apply Forall_forall. intros x Hx. apply In_nth_error in Hx. destruct Hx as [i Hi]. rewrite map2_nth in Hi.
    destruct (nth_error g i) as [c|] eqn:E1; [|discriminate]. destruct (nth_error p i); [|discriminate]. injection Hi as <-.
    unfold sized in *. rewrite Forall_forall in Hsz. rewrite map_length. apply Hsz. eapply nth_error_In; eauto.
Qed.
End Operations.
Print Assumptions C58_opposite.
Print Assumptions C58_addition.
Print Assumptions C58_plaintext_addition.
Print Assumptions C58_cleartext_multiplication.

(** ** From the host to the host, compared with the CPU engine *)
Lemma upload_even : forall available n count cs, (0 < available)%nat -> (0 < count)%nat -> (count mod available = 0)%nat -> length cs = count -> sized (S n) cs ->
  Z.of_nat (count * S n) <= 2 ^ 31 - 512 ->
  exists bs, copy_to_gpus available (S n) (concat cs) = Ret bs /\ distributed available count (S n) bs (concat cs) /\ (available <= count)%nat.
Proof.
  intros available n count cs Ha Hc Hd Hl Hs Hsm. pose proof (concat_len (S n) cs Hs) as Hlen. rewrite Hl in Hlen.
  assert (Hac : (available <= count)%nat).
  { pose proof (share_sum available count Ha) as S. rewrite Hd in S. destruct (count / available)%nat; [lia|]. clear - S. nia. }
  assert (0 < count / available)%nat by (apply Nat.div_str_pos; lia).
  destruct (C58_upload available (S n) count (concat cs)) as (bs & E & D); auto; try lia; [rewrite Nat.min_l by lia; lia|].
  rewrite Nat.min_l in D by lia. eauto.
Qed.
Lemma upload_even_1 : forall available n count ms, (0 < available)%nat -> (0 < count)%nat -> (count mod available = 0)%nat -> length ms = count ->
  Z.of_nat (count * S n) <= 2 ^ 31 - 512 -> exists bs, copy_to_gpus available 1 ms = Ret bs /\ distributed available count 1 bs ms.
Proof.
  intros available n count ms Ha Hc Hd Hl Hsm. assert (count <= count * S n)%nat by (clear; nia).
  assert (Hac : (available <= count)%nat).
  { pose proof (share_sum available count Ha) as S. rewrite Hd in S. destruct (count / available)%nat; [lia|]. clear - S. nia. }
  assert (0 < count / available)%nat by (apply Nat.div_str_pos; lia).
  destruct (C58_upload available 1 count ms) as (bs & E & D); auto; try lia; [rewrite Nat.min_l by lia; lia|].
  rewrite Nat.min_l in D by lia. eauto.
Qed.
Lemma download_even : forall available n count bs v, (0 < available)%nat -> (0 < count)%nat -> (count mod available = 0)%nat ->
  distributed available count (S n) bs v -> copy_from_gpus available (S n) count bs = Ret v.
Proof.
  intros available n count bs v Ha Hc Hd D.
  assert (Hac : (available <= count)%nat).
  { pose proof (share_sum available count Ha) as S. rewrite Hd in S. destruct (count / available)%nat; [lia|]. clear - S. nia. }
  assert (0 < count / available)%nat by (apply Nat.div_str_pos; lia).
  destruct (distributed_last _ _ _ _ _ Ha D) as (init & lst & -> & Hi & Hf & Hlst & Hv).
  unfold copy_from_gpus. rewrite download_distributed; auto; [|lia|rewrite repeat_length; lia|lia].
  rewrite Hd in *. cbn [Nat.mul firstn]. rewrite app_nil_r, firstn_all2 by lia. congruence.
Qed.

Section EndToEnd.
Context (p : profile) (w : Z) (sched : nat -> nat -> list nat) (available n count : nat).
Hypothesis Hsched : forall gpu, any_order (sched gpu).
Hypothesis Ha : (0 < available)%nat.
Hypothesis Hc : (0 < count)%nat.
Hypothesis Hd : (count mod available = 0)%nat.
Hypothesis Hsmall : Z.of_nat (count * S n) <= 2 ^ 31 - 512.

Theorem C58_opposite_as_cpu : forall output v, length output = count -> length v = count -> sized (S n) output -> sized (S n) v ->
  exists r, ozip_update (discard_opp w) output v = Ret r /\
  (let! o := copy_to_gpus available (S n) (concat output) in let! a := copy_to_gpus available (S n) (concat v) in
   let! o := execute_opposite w sched available n count o a in copy_from_gpus available (S n) count o) = Ret (concat r).
Proof.
  intros output v Lo Lv So Sv. exists (map (map (wneg w)) v). split.
  - assert (L : length output = length v) by lia. clear - L So Sv. revert v L Sv. induction So as [|o output Ho So IH]; intros [|c v] L Sv; try discriminate; [reflexivity|].
    apply Forall_cons_iff in Sv. destruct Sv as [Hc Sv]. cbn [ozip_update map]. unfold discard_opp at 1, fill_with_copy. rewrite Ho, Hc, Nat.eqb_refl. cbn [obind].
    rewrite IH; auto.
  - destruct (upload_even available n count output) as (bo & -> & Do & Hac); auto. destruct (upload_even available n count v) as (ba & -> & Da & _); auto. cbn [obind].
    destruct (C58_opposite w sched available n count Hsched Ha Hac Hsmall bo _ ba v Do Sv Da) as (o' & -> & D). cbn [obind].
    apply (download_even _ _ _ _ _ Ha Hc Hd D).
Qed.
Theorem C58_addition_as_cpu : forall output v1 v2, length output = count -> length v1 = count -> length v2 = count -> sized (S n) output -> sized (S n) v1 -> sized (S n) v2 ->
  exists r, discard_add_vector p w output v1 v2 = Ret r /\
  (let! o := copy_to_gpus available (S n) (concat output) in let! a := copy_to_gpus available (S n) (concat v1) in let! b := copy_to_gpus available (S n) (concat v2) in
   let! o := execute_addition w sched available n count o a b in copy_from_gpus available (S n) count o) = Ret (concat r).
Proof.
  intros output v1 v2 Lo L1 L2 So S1 S2. exists (map2 (map2 (wadd w)) v1 v2). split.
  - assert (L : length output = length v1) by lia. assert (L' : length v1 = length v2) by lia. clear - L L' So S1 S2. unfold discard_add_vector. revert v1 v2 L L' S1 S2.
    induction So as [|o output Ho So IH]; intros [|c v1] [|d v2] L L' S1 S2; try discriminate; [reflexivity|].
    apply Forall_cons_iff in S1, S2. destruct S1 as [Hc S1], S2 as [Hd S2]. cbn [combine ozip_update map2]. unfold discard_add at 1, fill_with_copy. rewrite Ho, Hc, Nat.eqb_refl. cbn [obind].
    unfold lwe_update_add, PolyModel.update_with_wrapping_add_, ck_dim_eq. rewrite Hc, Hd.
    rewrite IH; auto. replace (zip_update (wadd w) c d) with (map2 (wadd w) c d); [destruct p; cbn [obind assert_]; rewrite ?Nat.eqb_refl; reflexivity|].
    assert (E : length c = length d) by lia. clear - E. revert d E. induction c as [|x c IH]; intros [|y d] E; try discriminate; [reflexivity|]. cbn. f_equal. apply IH. cbn in E. lia.
  - destruct (upload_even available n count output) as (bo & -> & Do & Hac); auto. destruct (upload_even available n count v1) as (ba & -> & Da & _); auto.
    destruct (upload_even available n count v2) as (bb & -> & Db & _); auto. cbn [obind].
    destruct (C58_addition w sched available n count Hsched Ha Hac Hsmall bo _ ba bb v1 v2 Do S1 S2 Da Db) as (o' & -> & D). cbn [obind].
    apply (download_even _ _ _ _ _ Ha Hc Hd D).
Qed.
Theorem C58_plaintext_addition_as_cpu : forall output v ms, length output = count -> length v = count -> length ms = count -> sized (S n) output -> sized (S n) v ->
  exists r, discard_add_plaintext_vector w output v ms = Ret r /\
  (let! o := copy_to_gpus available (S n) (concat output) in let! a := copy_to_gpus available (S n) (concat v) in let! b := copy_to_gpus available 1 ms in
   let! o := execute_plaintext_addition w sched available n count o a b in copy_from_gpus available (S n) count o) = Ret (concat r).
Proof.
  intros output v ms Lo L1 L2 So S1. exists (map2 (fun c m => removelast c ++ [wadd w (last c 0) m]) v ms). split.
  - assert (L : length output = length v) by lia. assert (L' : length v = length ms) by lia. clear - L L' So S1. unfold discard_add_plaintext_vector.
    assert (E : ozip_update fill_with_copy output v = Ret v).
    { clear L'. revert v L S1. induction So as [|o output Ho So IH]; intros [|c v] L S1; try discriminate; [reflexivity|].
      apply Forall_cons_iff in S1. destruct S1 as [Hc S1]. cbn [ozip_update]. unfold fill_with_copy at 1. rewrite Ho, Hc, Nat.eqb_refl. cbn [obind]. rewrite IH; auto. }
    rewrite E. cbn [obind]. clear - L' S1. revert ms L'. induction S1 as [|c v Hc S1 IH]; intros [|m ms] L'; try discriminate; [reflexivity|].
    cbn [ozip_update map2]. rewrite IH by (cbn in L'; lia). destruct c; [discriminate|]. reflexivity.
  - destruct (upload_even available n count output) as (bo & -> & Do & Hac); auto. destruct (upload_even available n count v) as (ba & -> & Da & _); auto.
    destruct (upload_even_1 available n count ms) as (bb & -> & Db); auto. cbn [obind].
    destruct (C58_plaintext_addition w sched available n count Hsched Ha Hac Hsmall bo _ ba bb v ms Do S1 Da Db) as (o' & -> & D). cbn [obind].
    apply (download_even _ _ _ _ _ Ha Hc Hd D).
Qed.
Theorem C58_cleartext_multiplication_as_cpu : forall output v ss, length output = count -> length v = count -> length ss = count -> sized (S n) output -> sized (S n) v ->
  exists r, discard_mul_cleartext_vector p w output v ss = Ret r /\
  (let! o := copy_to_gpus available (S n) (concat output) in let! a := copy_to_gpus available (S n) (concat v) in let! b := copy_to_gpus available 1 ss in
   let! o := execute_cleartext_multiplication w sched available n count o a b in copy_from_gpus available (S n) count o) = Ret (concat r).
Proof.
  intros output v ss Lo L1 L2 So S1. exists (map2 (fun c s => map (fun x => wmul w x s) c) v ss). split.
  - assert (L : length output = length v) by lia. assert (L' : length v = length ss) by lia. clear - L L' So S1. revert v ss L L' S1.
    induction So as [|o output Ho So IH]; intros [|c v] [|s ss] L L' S1; try discriminate; [reflexivity|].
    apply Forall_cons_iff in S1. destruct S1 as [Hc S1]. cbn [discard_mul_cleartext_vector map2]. unfold lwe_fill_scalar_mul, ck_dim_eq. rewrite Ho, Hc.
    rewrite IH; auto. replace (zip_update (fun _ c0 => wmul w c0 s) o c) with (map (fun x => wmul w x s) c); [destruct p; cbn [obind assert_]; rewrite ?Nat.eqb_refl; reflexivity|].
    assert (E : length o = length c) by lia. clear - E. revert c E. induction o as [|x o IH]; intros [|y c] E; try discriminate; [reflexivity|]. cbn. f_equal. apply IH. cbn in E. lia.
  - destruct (upload_even available n count output) as (bo & -> & Do & Hac); auto. destruct (upload_even available n count v) as (ba & -> & Da & _); auto.
    destruct (upload_even_1 available n count ss) as (bb & -> & Db); auto. cbn [obind].
    destruct (C58_cleartext_multiplication w sched available n count Hsched Ha Hac Hsmall bo _ ba bb v ss Do S1 Da Db) as (o' & -> & D). cbn [obind].
    apply (download_even _ _ _ _ _ Ha Hc Hd D).
Qed.
End EndToEnd.
Print Assumptions C58_opposite_as_cpu.
Print Assumptions C58_addition_as_cpu.
Print Assumptions C58_plaintext_addition_as_cpu.
Print Assumptions C58_cleartext_multiplication_as_cpu.

(** Four ciphertexts of dimension 1 on two GPUs, whose threads run from the last to the first *)
Lemma backwards : any_order (fun t => rev (seq 0 t)).
Proof. intros t. apply Permutation_sym, Permutation_rev. Qed.
Example C58_case :
  (let! o := copy_to_gpus 2 2 (repeat 0 8) in let! a := copy_to_gpus 2 2 [1; 2; 3; 4; 5; 6; 7; 8] in let! b := copy_to_gpus 2 1 [10; 20; 30; 255] in
   let! o := execute_cleartext_multiplication 8 (fun _ t => rev (seq 0 t)) 2 1 4 o a b in copy_from_gpus 2 2 4 o) =
  Ret [10; 20; 60; 80; 150; 180; 249; 248] /\
  (let! o := copy_to_gpus 2 2 (repeat 0 8) in let! a := copy_to_gpus 2 2 [1; 2; 3; 4; 5; 6; 7; 8] in let! b := copy_to_gpus 2 1 [10; 20; 30; 255] in
   let! o := execute_plaintext_addition 8 (fun _ t => rev (seq 0 t)) 2 1 4 o a b in copy_from_gpus 2 2 4 o) =
  Ret [1; 12; 3; 24; 5; 36; 7; 7].
Proof. split; vm_compute; reflexivity. Qed.
(** The operations are right on an uneven distribution too (5 ciphertexts on 2 GPUs), before the vector is read back. *)
Example C58_uneven_case :
  (let! o := copy_to_gpus 2 1 [0; 0; 0; 0; 0] in let! a := copy_to_gpus 2 1 [1; 2; 3; 4; 5] in execute_opposite 8 (fun _ t => rev (seq 0 t)) 2 0 5 o a) =
  Ret [[255; 254]; [253; 252; 251]].
Proof. vm_compute. reflexivity. Qed.
