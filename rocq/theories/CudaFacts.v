(** * Facts about the vectors of the CUDA backend *)
From Coq Require Import Permutation.
From Verif Require Import Base Word CudaModel CudaSpec.

Lemma nth_error_ext {A} : forall l l' : list A, (forall i, nth_error l i = nth_error l' i) -> l = l'.
Proof.
  induction l as [|a l IH]; intros [|b l'] H; auto.
  - specialize (H 0%nat); discriminate.
  - specialize (H 0%nat); discriminate.
  - f_equal; [specialize (H 0%nat); cbn in H; congruence|]. apply IH. intros i. apply (H (S i)).
Qed.
Lemma get_some {A} : forall (l : list A) i x, nth_error l i = Some x -> get l i = Ret x.
Proof. intros l i x H. unfold get. rewrite H. reflexivity. Qed.
Lemma get_none {A} : forall (l : list A) i, (length l <= i)%nat -> get l i = Panic.
Proof. intros l i H. unfold get. apply nth_error_None in H. rewrite H. reflexivity. Qed.

Lemma chunks_exact_spec {A} : forall (c : nat) (cs : list (list A)) r fuel, (0 < c)%nat -> Forall (fun x => length x = c) cs -> (length r < c)%nat ->
  (length cs <= fuel)%nat -> chunks_exact_fuel fuel c (concat cs ++ r) = (cs, r).
Proof.
  intros c cs. induction cs as [|x cs IH]; intros r fuel Hc Hl Hr Hf.
  - destruct fuel as [|fuel]; [reflexivity|]. cbn [chunks_exact_fuel concat app].
    destruct (Nat.leb_spec c (length r)); [lia|reflexivity].
  - apply Forall_cons_iff in Hl. destruct Hl as [Hx Hl]. cbn [length] in Hf. destruct fuel as [|fuel]; [lia|].
    cbn [chunks_exact_fuel concat]. rewrite <- app_assoc.
    destruct (Nat.leb_spec c (length (x ++ concat cs ++ r))); [|rewrite app_length in *; lia].
    subst c. rewrite skipn_app, Nat.sub_diag, skipn_all, firstn_app, Nat.sub_diag, firstn_all. cbn [app skipn firstn].
    rewrite IH by (auto; lia). cbn [app firstn]. rewrite app_nil_r. reflexivity.
Qed.
Lemma chunks_exact_ret {A} : forall (c : nat) (cs : list (list A)) r, (0 < c)%nat -> Forall (fun x => length x = c) cs -> (length r < c)%nat ->
  chunks_exact c (concat cs ++ r) = Ret (cs, r).
Proof.
  intros c cs r Hc Hl Hr. unfold chunks_exact. destruct (Nat.eqb_spec c 0); [lia|]. f_equal. apply chunks_exact_spec; auto.
  rewrite app_length. enough (length cs <= length (concat cs))%nat by lia.
  clear Hr. induction Hl as [|x cs Hx Hl IH]; cbn [concat length]; [lia|]. rewrite app_length. lia.
Qed.
Lemma concat_len {A} : forall c (cs : list (list A)), Forall (fun x => length x = c) cs -> length (concat cs) = (length cs * c)%nat.
Proof. intros c cs H. induction H as [|x cs Hx H IH]; cbn [concat length]; [reflexivity|]. rewrite app_length. lia. Qed.
(** Every list is cut in [k] pieces of length [c] and a rest. *)
Lemma cut {A} : forall c k (l : list A), (k * c <= length l)%nat ->
  exists cs r, l = concat cs ++ r /\ Forall (fun x => length x = c) cs /\ length cs = k /\ length r = (length l - k * c)%nat.
Proof.
  intros c k. induction k as [|k IH]; intros l H.
  - exists [], l. cbn. repeat split; auto. lia.
  - destruct (IH (skipn c l)) as (cs & r & E & Hl & Hk & Hr); [rewrite skipn_length; lia|].
    exists (firstn c l :: cs), r. cbn [concat]. rewrite <- app_assoc, <- E, firstn_skipn. repeat split.
    + constructor; auto. rewrite firstn_length. lia.
    + cbn [length]. lia.
    + rewrite Hr, skipn_length. lia.
Qed.

Lemma to_device_ret : forall l, Z.of_nat (length l) < 2 ^ 32 -> to_device l = Ret l.
Proof. intros l H. unfold to_device. apply Z.ltb_lt in H. rewrite H. reflexivity. Qed.

Lemma upload_loop_last : forall streams gpus rem c cs index, (length cs + index = gpus - 1)%nat -> (0 < gpus)%nat -> (gpus <= streams)%nat ->
  Forall (fun x => Z.of_nat (length x) < 2 ^ 32) cs -> Z.of_nat (length (c ++ rem)) < 2 ^ 32 ->
  upload_loop streams gpus rem index (cs ++ [c]) = Ret (cs ++ [c ++ rem]).
Proof.
  intros streams gpus rem c cs. induction cs as [|x cs IH]; intros index Hi Hg Hs Hf Hc; cbn [app upload_loop]; cbn [length] in Hi.
  - destruct (Nat.ltb_spec index streams); [|lia]. destruct (Nat.eqb_spec index (gpus - 1)); [|lia].
    rewrite to_device_ret by auto. reflexivity.
  - destruct (Nat.ltb_spec index streams); [|lia]. destruct (Nat.eqb_spec index (gpus - 1)); [lia|].
    apply Forall_cons_iff in Hf. destruct Hf as [Hx Hf].
    rewrite to_device_ret by auto. cbn [obind]. rewrite IH; auto; lia.
Qed.
Lemma upload_loop_too_many : forall streams gpus rem cs index, (index <= streams)%nat -> (streams < index + length cs)%nat ->
  upload_loop streams gpus rem index cs = Panic.
Proof.
  intros streams gpus rem cs. induction cs as [|x cs IH]; intros index Hi H; cbn [length] in H; cbn [upload_loop]; [lia|].
  destruct (Nat.ltb_spec index streams); [|reflexivity].
  destruct (to_device _) as [v|]; cbn [obind]; [|reflexivity]. rewrite IH by lia. reflexivity.
Qed.

Lemma active_le : forall available count, (count >= available)%nat -> number_of_active_gpus available count = available.
Proof. intros. unfold number_of_active_gpus. destruct (Nat.ltb_spec count available); lia. Qed.
Lemma active_min : forall available count, number_of_active_gpus available count = Nat.min available count.
Proof. intros. unfold number_of_active_gpus. destruct (Nat.ltb_spec count available); lia. Qed.
Lemma samples_share : forall gpus count i, (0 < gpus)%nat -> compute_number_of_samples_on_gpu gpus count i = Ret (share gpus count i).
Proof. intros. unfold compute_number_of_samples_on_gpu, share. destruct (Nat.eqb_spec gpus 0); [lia|]. reflexivity. Qed.
Lemma share_0 : forall gpus count, (0 < gpus)%nat -> share gpus count 0 = (count / gpus)%nat.
Proof.
  intros gpus count H. unfold share. destruct (Nat.eqb_spec 0 (gpus - 1)); [|lia].
  assert (gpus = 1)%nat by lia. subst gpus. rewrite Nat.mod_1_r. lia.
Qed.

(** A distributed vector, piece by piece *)
Lemma distributed_last : forall gpus count size bs v, (0 < gpus)%nat -> distributed gpus count size bs v ->
  exists init lst, bs = init ++ [lst] /\ length init = (gpus - 1)%nat /\ Forall (fun x => length x = (count / gpus * size)%nat) init /\
    length lst = ((count / gpus + count mod gpus) * size)%nat /\ v = concat init ++ lst.
Proof.
  intros gpus count size bs v Hg (Hl & Hb & Hc).
  destruct (exists_last (l := bs)) as (init & lst & E); [intros ->; cbn in Hl; lia|].
  exists init, lst. subst bs. rewrite app_length in Hl. cbn [length] in Hl.
  repeat split; auto; [lia| | |].
  - apply Forall_forall. intros x Hx. apply In_nth_error in Hx. destruct Hx as [i Hi].
    assert (i < length init)%nat by (apply nth_error_Some; congruence).
    rewrite (Hb i x) by (rewrite nth_error_app1; auto). unfold share. destruct (Nat.eqb_spec i (gpus - 1)); [lia|]. f_equal. lia.
  - rewrite (Hb (gpus - 1)%nat lst).
    + unfold share. rewrite Nat.eqb_refl. reflexivity.
    + rewrite nth_error_app2 by lia. replace (gpus - 1 - length init)%nat with 0%nat by lia. reflexivity.
  - rewrite <- Hc, concat_app. cbn. rewrite app_nil_r. reflexivity.
Qed.
Lemma distributed_of_last : forall gpus count size init lst, (0 < gpus)%nat -> length init = (gpus - 1)%nat ->
  Forall (fun x => length x = (count / gpus * size)%nat) init -> length lst = ((count / gpus + count mod gpus) * size)%nat ->
  distributed gpus count size (init ++ [lst]) (concat init ++ lst).
Proof.
  intros gpus count size init lst Hg Hi Hf Hl. repeat split.
  - rewrite app_length. cbn. lia.
  - intros i b Hb. unfold share. destruct (Nat.eqb_spec i (gpus - 1)).
    + subst i. rewrite nth_error_app2 in Hb by lia. replace (gpus - 1 - length init)%nat with 0%nat in Hb by lia. cbn in Hb. injection Hb as <-. auto.
    + rewrite Nat.add_0_r. assert (i < length init)%nat.
      { assert (i < length (init ++ [lst]))%nat by (apply nth_error_Some; congruence). rewrite app_length in *. cbn in *. lia. }
      rewrite nth_error_app1 in Hb by auto. apply nth_error_In in Hb. rewrite Forall_forall in Hf. auto.
  - rewrite concat_app. cbn. rewrite app_nil_r. reflexivity.
Qed.
Lemma share_sum : forall gpus count, (0 < gpus)%nat -> (gpus * (count / gpus) + count mod gpus = count)%nat.
Proof. intros gpus count H. pose proof (Nat.div_mod count gpus). lia. Qed.

(** ** Upload and download *)
Lemma upload_distributed : forall available size count input, (0 < size)%nat -> (0 < available)%nat -> (0 < count)%nat ->
  length input = (count * size)%nat -> Z.of_nat (length input) < 2 ^ 32 ->
  (count mod (Nat.min available count) < count / Nat.min available count)%nat ->
  exists bs, copy_to_gpus available size input = Ret bs /\ distributed (Nat.min available count) count size bs input.
Proof.
  intros available size count input Hs Ha Hc Hl Hsmall Hr. set (g := Nat.min available count) in *.
  assert (Hg : (0 < g)%nat) by (subst g; lia).
  pose proof (share_sum g count Hg) as Hsum. set (q := (count / g)%nat) in *. set (r := (count mod g)%nat) in *.
  destruct (cut (q * size) g input) as (cs & rem & E & Hcs & Hk & Hrem).
  { rewrite Hl, <- Hsum. clear - q r. nia. }
  assert (Hrem' : length rem = (r * size)%nat) by (rewrite Hrem, Hl, <- Hsum; clear - q r; nia).
  destruct (exists_last (l := cs)) as (init & c & Ec); [intros ->; cbn in Hk; lia|].
  subst cs. apply Forall_app in Hcs. destruct Hcs as [Hinit Hlast]. apply Forall_cons_iff in Hlast. destruct Hlast as [Hlast _].
  rewrite app_length in Hk. cbn [length] in Hk.
  exists (init ++ [c ++ rem]). split.
  - unfold copy_to_gpus. replace (length input / size)%nat with count by (rewrite Hl, Nat.div_mul; lia).
    rewrite active_min. fold g. rewrite samples_share by auto. cbn [obind]. rewrite share_0 by auto. fold q.
    rewrite E, chunks_exact_ret; [cbn [obind]| | |].
    + apply upload_loop_last; auto; [lia|subst g; lia| |].
      * eapply Forall_impl; [|exact Hinit]. cbn. intros x ->. assert (q * size <= length input)%nat by (rewrite Hl, <- Hsum; clear - Hg; nia). lia.
      * assert (length (c ++ rem) <= length input)%nat by (rewrite app_length, Hlast, Hrem', Hl, <- Hsum; clear - Hg; nia). lia.
    + clear - Hr Hs. nia.
    + apply Forall_app. auto.
    + rewrite Hrem'. clear - Hr Hs. nia.
  - rewrite E, concat_app. cbn [concat]. rewrite app_nil_r, <- app_assoc.
    apply distributed_of_last; auto; [lia|]. rewrite app_length, Hlast, Hrem'. fold q r. lia.
Qed.

Lemma download_loop_ret : forall streams c cs ds pre tl, Forall (fun x => length x = c) cs -> length ds = length cs -> (length pre + length cs <= streams)%nat ->
  Forall (fun d => (c <= length d)%nat) ds ->
  download_loop streams (pre ++ ds ++ tl) (length pre) cs = Ret (map (firstn c) ds).
Proof.
  intros streams c cs. induction cs as [|x cs IH]; intros ds pre tl Hcs Hl Hs Hd.
  - destruct ds; [reflexivity|discriminate].
  - destruct ds as [|d ds]; [discriminate|]. cbn [length] in *. cbn [download_loop].
    apply Forall_cons_iff in Hcs. destruct Hcs as [Hx Hcs]. apply Forall_cons_iff in Hd. destruct Hd as [Hd Hds].
    destruct (Nat.ltb_spec (length pre) streams); [|lia].
    rewrite (get_some _ _ d) by (rewrite nth_error_app2, Nat.sub_diag by lia; reflexivity). cbn [obind].
    unfold from_device at 1. rewrite Hx. destruct (Nat.leb_spec c (length d)); [|lia]. cbn [obind].
    specialize (IH ds (pre ++ [d]) tl). rewrite app_length in IH. cbn [length] in IH. rewrite <- app_assoc in IH. cbn [app] in *.
    replace (length pre + 1)%nat with (S (length pre)) in IH by lia. rewrite IH by (auto; lia). reflexivity.
Qed.

(** What is read back from a distributed vector *)
Lemma download_distributed : forall available size count output init lst, (0 < size)%nat -> (0 < available)%nat ->
  length output = (count * size)%nat -> (count mod available < count / available)%nat ->
  length init = (available - 1)%nat -> Forall (fun x => length x = (count / available * size)%nat) init ->
  length lst = ((count / available + count mod available) * size)%nat ->
  discard_copy_from_gpus available size count (init ++ [lst]) output =
    Ret (concat init ++ firstn (count / available * size) lst ++ firstn (count mod available * size) lst).
Proof.
  intros available size count output init lst Hs Ha Ho Hr Hi Hf Hl.
  pose proof (share_sum available count Ha) as Hsum. set (q := (count / available)%nat) in *. set (r := (count mod available)%nat) in *.
  destruct (cut (q * size) available output) as (cs & rem & E & Hcs & Hk & Hrem).
  { rewrite Ho, <- Hsum. clear - q r. nia. }
  assert (Hrem' : length rem = (r * size)%nat) by (rewrite Hrem, Ho, <- Hsum; clear - q r; nia).
  unfold discard_copy_from_gpus. rewrite samples_share by auto. cbn [obind]. rewrite share_0 by auto. fold q.
  rewrite E, chunks_exact_ret; [cbn [obind]| | |]; auto; [|clear - Hr Hs; nia|rewrite Hrem'; clear - Hr Hs; nia].
  assert (Hd : Forall (fun d => (q * size <= length d)%nat) (init ++ [lst])).
  { apply Forall_app. split; [eapply Forall_impl; [|exact Hf]; cbn; intros; lia|]. constructor; auto. rewrite Hl. clear - q r. nia. }
  pose proof (download_loop_ret available (q * size) cs (init ++ [lst]) [] []) as D. cbn [app length] in D. rewrite app_nil_r in D.
  rewrite D; auto; [|rewrite app_length; cbn [length]; lia|lia]. cbn [obind].
  assert (Hm : concat (map (firstn (q * size)) (init ++ [lst])) = concat init ++ firstn (q * size) lst).
  { rewrite map_app, concat_app. cbn [map concat]. rewrite app_nil_r. f_equal. clear - Hf.
    induction Hf as [|x l Hx Hl IH]; [reflexivity|]. cbn [map concat]. rewrite IH. f_equal. rewrite <- Hx. apply firstn_all. }
  rewrite Hm.
  destruct (Nat.ltb_spec (q * available) count) as [Hlt|Hge].
  - rewrite (get_some _ _ lst). 2:{ rewrite app_length, nth_error_app2 by (cbn [length]; lia). cbn [length]. replace (length init + 1 - 1 - length init)%nat with 0%nat by lia. reflexivity. }
    cbn [obind]. unfold from_device. rewrite Hrem'. destruct (Nat.leb_spec (r * size) (length lst)) as [|Hbad]; [cbn [obind]; rewrite <- app_assoc; reflexivity|].
    exfalso. rewrite Hl in Hbad. clear - Hbad. nia.
  - assert (r = 0)%nat by (clear - Hge Hsum; nia). rewrite H in *. cbn [Nat.mul] in Hrem'. destruct rem; [|discriminate]. cbn [obind firstn Nat.mul]. rewrite <- app_assoc. reflexivity.
Qed.

(** ** Threads *)
Lemma set_word_nth : forall l i v, (i < length l)%nat -> exists l', set_word l i v = Ret l' /\ length l' = length l /\
  forall j, nth_error l' j = if Nat.eqb j i then Some v else nth_error l j.
Proof.
  intros l i v H. unfold set_word. destruct (Nat.ltb_spec i (length l)); [|lia]. eexists. split; [reflexivity|]. split.
  - rewrite app_length, firstn_length. cbn [length]. rewrite skipn_length. lia.
  - intros j. destruct (Nat.eqb_spec j i) as [->|Hne].
    + rewrite nth_error_app2 by (rewrite firstn_length; lia). rewrite firstn_length. replace (i - Nat.min i (length l))%nat with 0%nat by lia. reflexivity.
    + destruct (Nat.ltb_spec j i).
      * rewrite nth_error_app1 by (rewrite firstn_length; lia). rewrite <- (firstn_skipn i l) at 2. rewrite nth_error_app1; auto. rewrite firstn_length. lia.
      * rewrite nth_error_app2 by (rewrite firstn_length; lia). rewrite firstn_length.
        replace (j - Nat.min i (length l))%nat with (S (j - S i)) by lia. cbn [nth_error].
        rewrite <- (firstn_skipn (S i) l) at 2. rewrite nth_error_app2; rewrite firstn_length; [f_equal|]; lia.
Qed.

(** Threads that write distinct cells, in range, may run in any order: every written cell has the value of its thread, the others
    are unchanged. *)
Lemma scatter : forall (k : kernel) (f : nat -> option (nat * Z)) order output, NoDup order ->
  (forall i, In i order -> k i = Ret (f i)) ->
  (forall i j v, In i order -> f i = Some (j, v) -> (j < length output)%nat) ->
  (forall i i' j v v', f i = Some (j, v) -> f i' = Some (j, v') -> i = i') ->
  exists out, run_threads k order output = Ret out /\ length out = length output /\
    (forall i j v, In i order -> f i = Some (j, v) -> nth_error out j = Some v) /\
    (forall j, (forall i v, In i order -> f i <> Some (j, v)) -> nth_error out j = nth_error output j).
Proof.
  intros k f order. induction order as [|i order IH]; intros output Hnd Hk Hin Hdis.
  - exists output. repeat split; auto. intros i j v [].
  - apply NoDup_cons_iff in Hnd. destruct Hnd as [Hni Hnd]. cbn [run_threads]. rewrite Hk by (left; auto). cbn [obind].
    destruct (f i) as [[j v]|] eqn:Ef.
    + destruct (set_word_nth output j v) as (o & Es & Hl & Hn); [apply (Hin i j v); auto; left; auto|].
      rewrite Es. cbn [obind]. destruct (IH o) as (out & Er & Hlen & Hw & Hu); auto.
      { intros; apply Hk; right; auto. } { intros i' j' v' Hi' Hf'. rewrite Hl. apply (Hin i' j' v'); auto. right; auto. }
      exists out. split; [exact Er|]. split; [congruence|]. split.
      * intros i' j' v' [<-|Hi'] Hf'; [|eapply Hw; eauto]. rewrite Ef in Hf'. injection Hf' as <- <-.
        rewrite Hu; [rewrite Hn, Nat.eqb_refl; reflexivity|]. intros i' v' Hi' Hf'. assert (i = i') by (eapply Hdis; eauto). subst i'. contradiction.
      * intros j' Hno. rewrite Hu by (intros i' v' Hi'; apply Hno; right; auto). rewrite Hn.
        destruct (Nat.eqb_spec j' j) as [->|]; [|reflexivity]. exfalso. apply (Hno i v); [left; auto|auto].
    + cbn [obind]. destruct (IH output) as (out & Er & Hlen & Hw & Hu); auto.
      { intros; apply Hk; right; auto. } { intros i' j' v' Hi'. apply Hin. right; auto. }
      exists out. repeat split; auto.
      * intros i' j' v' [<-|Hi'] Hf'; [congruence|eauto].
      * intros j' Hno. apply Hu. intros i' v' Hi'. apply Hno. right; auto.
Qed.

(** ** Grids *)
Lemma i32_small : forall x, 0 <= x < 2 ^ 31 -> i32 x = x.
Proof. intros x H. unfold i32. rewrite Z.mod_small by lia. destruct (Z.ltb_spec x (2 ^ 31)); lia. Qed.
Lemma u32_small : forall x, 0 <= x < 2 ^ 32 -> u32 x = x.
Proof. intros x H. unfold u32. apply Z.mod_small. lia. Qed.

Lemma nextPow2_table : forallb (fun x => let y := nextPow2 (Z.of_nat x) in (Z.of_nat x <=? y) && (y <=? 512)) (seq 0 513) = true.
Proof. vm_compute. reflexivity. Qed.
Lemma nextPow2_small : forall x, 0 <= x <= 512 -> x <= nextPow2 x <= 512.
Proof.
  intros x H. pose proof nextPow2_table as T. rewrite forallb_forall in T. specialize (T (Z.to_nat x)).
  rewrite Z2Nat.id in T by lia. cbv zeta in T. specialize (T ltac:(apply in_seq; lia)). apply andb_prop in T. destruct T as [T1 T2].
  apply Z.leb_le in T1, T2. lia.
Qed.
Lemma grid_covers : forall n, 1 <= n <= 2 ^ 31 - 512 -> exists blocks threads, get_num_blocks_and_threads n 512 = (blocks, threads) /\
  1 <= blocks < 2 ^ 31 /\ 128 <= threads <= 512 /\ n <= blocks * threads < n + threads.
Proof.
  intros n Hn. unfold get_num_blocks_and_threads.
  set (t := if n <? 512 * 2 then Z.max 128 (nextPow2 (Z.quot (i32 (n + 1)) 2)) else 512).
  assert (Ht : 128 <= t <= 512).
  { subst t. destruct (Z.ltb_spec n (512 * 2)); [|lia]. rewrite i32_small by lia. rewrite Z.quot_div_nonneg by lia.
    assert (0 <= (n + 1) / 2 <= 512) by (clear - H Hn; lia). pose proof (nextPow2_small _ H0). lia. }
  exists (Z.quot (i32 (n + t - 1)) t), t. split; [reflexivity|]. clearbody t. rewrite i32_small by lia. rewrite Z.quot_div_nonneg by lia.
  pose proof (Z.div_mod (n + t - 1) t ltac:(lia)) as D. pose proof (Z.mod_pos_bound (n + t - 1) t ltac:(lia)) as B.
  set (q := (n + t - 1) / t) in *. set (r := (n + t - 1) mod t) in *. clearbody q r.
  assert (n <= q * t < n + t) by (clear - D B; nia). repeat split; try lia; clear - H Hn Ht; nia.
Qed.

(** A launch with a grid for [n] entries runs every thread once. *)
Lemma grid_scatter : forall sched n (k : kernel) f output, any_order sched -> 1 <= n <= 2 ^ 31 - 512 ->
  (forall i, Z.of_nat i < 2 ^ 31 -> k i = Ret (f i)) -> (forall i, n <= Z.of_nat i -> f i = None) ->
  (forall i j v, f i = Some (j, v) -> (j < length output)%nat) ->
  (forall i i' j v v', f i = Some (j, v) -> f i' = Some (j, v') -> i = i') ->
  exists out, grid_of sched n k output = Ret out /\ length out = length output /\
    (forall i j v, f i = Some (j, v) -> nth_error out j = Some v) /\
    (forall j, (forall i v, f i <> Some (j, v)) -> nth_error out j = nth_error output j).
Proof.
  intros sched n k f output Hs Hn Hk Hf Hin Hdis.
  destruct (grid_covers n Hn) as (b & t & E & Hb & Ht & Hbt). unfold grid_of. rewrite E. unfold launch.
  destruct (Z.leb_spec 1 b); [|lia]. destruct (Z.ltb_spec b (2 ^ 31)); [|lia]. destruct (Z.leb_spec 1 t); [|lia]. destruct (Z.leb_spec t 1024); [|lia].
  cbn [andb]. pose proof (Hs (Z.to_nat (b * t))) as P.
  assert (Hord : forall i, In i (sched (Z.to_nat (b * t))) <-> Z.of_nat i < b * t).
  { intros i. split; intros Hi.
    - apply (Permutation_in _ P) in Hi. apply in_seq in Hi. lia.
    - apply (Permutation_in _ (Permutation_sym P)). apply in_seq. lia. }
  destruct (scatter k f (sched (Z.to_nat (b * t))) output) as (out & Er & Hl & Hw & Hu).
  - apply (Permutation_NoDup (Permutation_sym P)). apply seq_NoDup.
  - intros i Hi. apply Hord in Hi. apply Hk. lia.
  - intros i j v _. apply Hin.
  - exact Hdis.
  - exists out. repeat split; auto.
    + intros i j v Hi. apply (Hw i); auto. apply Hord. destruct (Z.ltb_spec (Z.of_nat i) n); [lia|]. rewrite Hf in Hi by lia. discriminate.
Qed.

(** One thread per word *)
Lemma grid_words : forall sched n (k : kernel) (g : nat -> Z) output, any_order sched -> length output = n -> 1 <= Z.of_nat n <= 2 ^ 31 - 512 ->
  (forall i, Z.of_nat i < 2 ^ 31 -> k i = Ret (if Nat.ltb i n then Some (i, g i) else None)) ->
  grid_of sched (Z.of_nat n) k output = Ret (map g (seq 0 n)).
Proof.
  intros sched n k g output Hs Hl Hn Hk.
  destruct (grid_scatter sched (Z.of_nat n) k (fun i => if Nat.ltb i n then Some (i, g i) else None) output) as (out & Er & Hlen & Hw & _); auto.
  - intros i Hi. destruct (Nat.ltb_spec i n); [lia|reflexivity].
  - intros i j v. destruct (Nat.ltb_spec i n); [|discriminate]. intros [= <- <-]. lia.
  - intros i i' j v v'. destruct (Nat.ltb i n); [|discriminate]. destruct (Nat.ltb i' n); [|discriminate]. congruence.
  - rewrite Er. f_equal. apply nth_error_ext. intros j. destruct (Nat.ltb_spec j n) as [Hj|Hj].
    + rewrite (Hw j j (g j)). 2:{ destruct (Nat.ltb_spec j n); [reflexivity|lia]. }
      rewrite nth_error_map. rewrite (nth_error_nth' _ 0%nat) by (rewrite seq_length; lia). rewrite seq_nth by lia. reflexivity.
    + transitivity (@None Z); [apply nth_error_None; lia|]. symmetry. apply nth_error_None. rewrite map_length, seq_length. lia.
Qed.

(** ** The loop over the GPUs *)
Lemma on_every_gpu_ret : forall available count body (res : nat -> list Z) n done outs, (0 < available)%nat -> (n <= length outs)%nat ->
  (forall i o, (i < n)%nat -> nth_error outs i = Some o -> body (length done + i)%nat (u32 (Z.of_nat (share available count (length done + i)))) o = Ret (res (length done + i)%nat)) ->
  on_every_gpu available count body (seq (length done) n) (done ++ outs) = Ret (done ++ map res (seq (length done) n) ++ skipn n outs).
Proof.
  intros available count body res n. induction n as [|n IH]; intros done outs Ha Hl Hb; [reflexivity|].
  destruct outs as [|o outs]; [cbn in Hl; lia|]. cbn [length] in Hl. cbn [seq on_every_gpu].
  rewrite samples_share by auto. cbn [obind]. rewrite (get_some _ _ o) by (rewrite nth_error_app2, Nat.sub_diag by lia; reflexivity). cbn [obind].
  pose proof (Hb 0%nat o ltac:(lia) eq_refl) as H0. rewrite Nat.add_0_r in H0. rewrite H0. cbn [obind].
  rewrite firstn_app, Nat.sub_diag, firstn_all. cbn [firstn]. rewrite app_nil_r.
  replace (skipn (S (length done)) (done ++ o :: outs)) with outs.
  2:{ rewrite skipn_app, skipn_all2 by lia. replace (S (length done) - length done)%nat with 1%nat by lia. reflexivity. }
  specialize (IH (done ++ [res (length done)]) outs Ha ltac:(lia)). rewrite app_length in IH. cbn [length] in IH.
  rewrite (Nat.add_comm (length done) 1) in IH. cbn [Nat.add] in IH. rewrite <- !app_assoc in IH. cbn [app] in IH. cbn [map skipn app]. apply IH.
  intros i o' Hi Ho'. specialize (Hb (S i) o' ltac:(lia) Ho'). rewrite <- plus_n_Sm in Hb. exact Hb.
Qed.
