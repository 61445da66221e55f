(** * The small kernels of the bit extraction of the CUDA backend *)
From Coq Require Import Reals Lra Permutation.
From Verif Require Import Base Word WordFacts DecompModel DecompProofs NegaRing PolySpec LweSpec LweModel LweProofs LweTheorems GlweSpec GlweModel GgswSpec ExtProdModel ExtProdSpec ExtProdTheorems
  BootstrapSpec BootstrapModel BootstrapTheorems KeyswitchSpec KeyswitchModel KeyswitchTheorems WopModel WopSpec WopBitsProofs WopBitsTheorems
  CudaBlockModel CudaBlockProofs CudaFftModel CudaFftSpec CudaFftAlgebra CudaFftProofs CudaFftFacts CudaFftTheorems CudaFftRealTheorems
  CudaPbsModel CudaPbsSpec CudaPbsLink CudaPbsTheorems CudaPbsRealModel CudaPbsReal CudaPbsRealBackend CudaPbsRealTheorems CudaGridModel CudaLowLatModel CudaLowLatTheorems CudaLowLatRealTheorems
  CudaSpec CudaKsModel CudaKsTheorems CudaGatesModel CudaGatesTheorems CudaBitsModel.
From Verif Require CudaModel CudaFacts CudaTheorems.
Local Open Scope Z_scope.
Notation phase := LweSpec.phase.

(** ** The small kernels *)
Lemma set_cell_nth {A} (l : list A) i v : (i < length l)%nat -> exists l', set_cell l i v = Ret l' /\ length l' = length l /\
  forall c, nth_error l' c = if Nat.eqb c i then Some v else nth_error l c.
Proof.
  intros Hi. unfold set_cell. destruct (Nat.ltb_spec i (length l)) as [_|]; [|lia]. eexists. split; [reflexivity|].
  assert (Lf : length (firstn i l) = i) by (rewrite firstn_length; lia). split.
  - rewrite app_length, Lf. cbn [length]. rewrite skipn_length. lia.
  - intros c. destruct (Nat.eqb_spec c i) as [->|Hc].
    + rewrite nth_error_app2 by lia. rewrite Lf, Nat.sub_diag. reflexivity.
    + destruct (Nat.ltb_spec c i).
      * rewrite nth_error_app1 by lia. apply nth_error_firstn_lt. lia.
      * rewrite nth_error_app2 by lia. rewrite Lf. replace (c - i)%nat with (S (c - S i)) by lia. cbn [nth_error].
        rewrite <- (firstn_skipn (S i) l) at 2. rewrite nth_error_app2 by (rewrite firstn_length; lia). f_equal. rewrite firstn_length. lia.
Qed.
Lemma run_cells_ok {A} (f : nat -> A -> outcome A) (g : nat -> A -> A) cells : NoDup cells -> (forall c old, In c cells -> f c old = Ret (g c old)) ->
  forall order buf, NoDup order -> (forall j, In j order -> (j < length cells)%nat) -> (forall c, In c cells -> (c < length buf)%nat) ->
  exists out, run_cells f cells order buf = Ret out /\ length out = length buf /\
    (forall j old, In j order -> nth_error buf (nth j cells 0%nat) = Some old -> nth_error out (nth j cells 0%nat) = Some (g (nth j cells 0%nat) old)) /\
    (forall c, (forall j, In j order -> nth j cells 0%nat <> c) -> nth_error out c = nth_error buf c).
Proof.
  intros Hnd Hf. induction order as [|j order IH]; intros buf Ho Hj Hb.
  - exists buf. split; [reflexivity|]. split; [reflexivity|]. split; [intros j old []|reflexivity].
  - cbn [run_cells]. apply NoDup_cons_iff in Ho. destruct Ho as [Hni Ho].
    assert (Lj : (j < length cells)%nat) by (apply Hj; left; reflexivity). set (c := nth j cells 0%nat). assert (Ic : In c cells) by (apply nth_In, Lj).
    rewrite (CudaFacts.get_some _ _ c) by (apply nth_error_nth', Lj). cbn [obind].
    pose proof (Hb c Ic) as Lc. destruct (nth_error buf c) as [old|] eqn:Eo; [|apply nth_error_None in Eo; lia].
    rewrite (CudaFacts.get_some _ _ old Eo). cbn [obind]. rewrite (Hf c old Ic). cbn [obind].
    destruct (set_cell_nth buf c (g c old) Lc) as (buf' & -> & Lb & Hn). cbn [obind].
    destruct (IH buf' Ho) as (out & E & L & H1 & H2); [intros; apply Hj; right; assumption|intros; rewrite Lb; apply Hb; assumption|].
    assert (Hne : forall j', In j' order -> nth j' cells 0%nat <> c).
    { intros j' Hj' Ec. apply Hni. replace j with j'; [exact Hj'|]. apply (proj1 (NoDup_nth cells 0%nat) Hnd); [apply Hj; right; exact Hj'|exact Lj|exact Ec]. }
    exists out. split; [exact E|]. split; [congruence|]. split.
    + intros j' old' [<-|Hj'] Eold.
      * fold c in Eold |- *. rewrite H2 by exact Hne. rewrite Hn, Nat.eqb_refl. rewrite Eo in Eold. injection Eold as <-. reflexivity.
      * apply H1; [exact Hj'|]. rewrite Hn. destruct (Nat.eqb_spec (nth j' cells 0%nat) c) as [Ec|_]; [exfalso; exact (Hne j' Hj' Ec)|exact Eold].
    + intros c' Hc'. rewrite H2 by (intros j' Hj'; apply Hc'; right; exact Hj'). rewrite Hn. destruct (Nat.eqb_spec c' c) as [->|_]; [exfalso; exact (Hc' j (or_introl eq_refl) eq_refl)|reflexivity].
Qed.
(** In any order, every cell of the kernel is updated once and the others keep their value. *)
Lemma cell_kernel_ok {A} sched (f : nat -> A -> outcome A) (g : nat -> A -> A) cells buf : any_order sched -> NoDup cells ->
  (forall c old, In c cells -> f c old = Ret (g c old)) -> (forall c, In c cells -> (c < length buf)%nat) ->
  exists out, cell_kernel sched f cells buf = Ret out /\ length out = length buf /\
    (forall c old, In c cells -> nth_error buf c = Some old -> nth_error out c = Some (g c old)) /\
    (forall c, ~ In c cells -> nth_error out c = nth_error buf c).
Proof.
  intros Hs Hnd Hf Hb. pose proof (Hs (length cells)) as P.
  destruct (run_cells_ok f g cells Hnd Hf (sched (length cells)) buf) as (out & E & L & H1 & H2).
  - apply (Permutation_NoDup (Permutation_sym P)), seq_NoDup.
  - intros j Hj. apply (Permutation_in _ P) in Hj. apply in_seq in Hj. lia.
  - exact Hb.
  - exists out. split; [exact E|]. split; [exact L|]. split.
    + intros c old Hc Ho. destruct (In_nth _ _ 0%nat Hc) as (j & Hj & <-). apply H1; [|exact Ho]. apply (Permutation_in _ (Permutation_sym P)), in_seq. lia.
    + intros c Hc. apply H2. intros j Hj Ec. apply Hc. rewrite <- Ec. apply nth_In. apply (Permutation_in _ P), in_seq in Hj. lia.
Qed.
Lemma NoDup_flat_map {A B} (f : A -> list B) : forall l, NoDup l -> (forall a, In a l -> NoDup (f a)) -> (forall a a' b, In a l -> In a' l -> In b (f a) -> In b (f a') -> a = a') -> NoDup (flat_map f l).
Proof.
  induction l as [|a l IH]; intros Hl Hf Hd; [constructor|]. apply NoDup_cons_iff in Hl. destruct Hl as [Hn Hl]. cbn [flat_map].
  assert (G : forall l1 l2 : list B, NoDup l1 -> NoDup l2 -> (forall b, In b l1 -> ~ In b l2) -> NoDup (l1 ++ l2)).
  { clear. induction l1 as [|x l1 IH]; intros l2 H1 H2 H3; [exact H2|]. apply NoDup_cons_iff in H1. destruct H1 as [Hx H1]. cbn. constructor.
    - rewrite in_app_iff. intros [?|?]; [contradiction|exact (H3 x (or_introl eq_refl) H)].
    - apply IH; [assumption..|]. intros b Hb. apply H3. right. exact Hb. }
  apply G; [apply Hf; left; reflexivity|apply IH; [exact Hl|intros; apply Hf; right; assumption|intros a1 a2 b H1 H2; apply Hd; right; assumption]|].
  intros b Hb Hc. apply in_flat_map in Hc. destruct Hc as (a' & Ha' & Hb'). assert (a = a') by (apply (Hd a a' b); [left; reflexivity|right; exact Ha'|exact Hb|exact Hb']). subst a'. contradiction.
Qed.
Lemma strided_spec T m t c : (t < T)%nat -> In c (strided T m t) <-> (c mod T = t /\ c < m * T)%nat.
Proof.
  intros Ht. unfold strided. rewrite in_map_iff. split.
  - intros (i & <- & Hi). apply in_seq in Hi. split; [rewrite Nat.mod_add by lia; apply Nat.mod_small; exact Ht|]. assert (S i * T <= m * T)%nat by (apply Nat.mul_le_mono_r; lia). lia.
  - intros [E Hc]. exists (c / T)%nat. pose proof (Nat.div_mod c T ltac:(lia)) as D. split; [rewrite E in D; rewrite (Nat.mul_comm _ T), Nat.add_comm; symmetry; exact D|]. apply in_seq. split; [apply Nat.le_0_l|]. cbn [Nat.add]. apply Nat.div_lt_upper_bound; [lia|]. rewrite Nat.mul_comm. exact Hc.
Qed.
Lemma strided_nodup T m t : (0 < T)%nat -> NoDup (strided T m t).
Proof. intros HT. unfold strided. apply FinFun.Injective_map_NoDup; [|apply seq_NoDup]. intros i j E. nia. Qed.
Lemma nodup_app {B} : forall l1 l2 : list B, NoDup l1 -> NoDup l2 -> (forall b, In b l1 -> ~ In b l2) -> NoDup (l1 ++ l2).
Proof.
  induction l1 as [|x l1 IH]; intros l2 H1 H2 H3; [exact H2|]. apply NoDup_cons_iff in H1. destruct H1 as [Hx H1]. cbn. constructor.
  - rewrite in_app_iff. intros [?|?]; [contradiction|exact (H3 x (or_introl eq_refl) H)].
  - apply IH; [assumption..|]. intros b Hb. apply H3. right. exact Hb.
Qed.

Section Cells.
Context (H T opt k : nat).
Hypothesis (HT : (0 < T)%nat) (HH : (opt * T = H)%nat) (Hk : (0 < k)%nat).
Notation N := (2 * H)%nat.
Lemma small_cells_in size c : In c (small_cells size) <-> (c < size)%nat.
Proof.
  unfold small_cells. rewrite in_flat_map. pose proof (Nat.div_mod size 256 ltac:(lia)) as D. pose proof (Nat.mod_upper_bound size 256 ltac:(lia)) as B. split.
  - intros (t & Ht & Hc). apply in_seq in Ht. apply in_app_iff in Hc. destruct Hc as [Hc|Hc].
    + apply strided_spec in Hc; [|lia]. lia.
    + destruct (Nat.ltb_spec t (size mod 256)); [|contradiction]. destruct Hc as [<-|[]]. lia.
  - intros Hc. exists (c mod 256)%nat. pose proof (Nat.mod_upper_bound c 256 ltac:(lia)). split; [apply in_seq; lia|]. apply in_app_iff.
    destruct (Nat.ltb_spec c (size / 256 * 256)); [left; apply strided_spec; lia|right].
    assert (E : (c = c mod 256 + size / 256 * 256)%nat).
    { pose proof (Nat.div_mod c 256 ltac:(lia)). assert (c / 256 = size / 256)%nat; [|lia]. symmetry. apply (Nat.div_unique c 256 (size / 256) (c - size / 256 * 256)); lia. }
    destruct (Nat.ltb_spec (c mod 256) (size mod 256)); [left; lia|lia].
Qed.
Lemma small_cells_nodup size : NoDup (small_cells size).
Proof.
  unfold small_cells. apply NoDup_flat_map; [apply seq_NoDup| |].
  - intros t Ht. apply in_seq in Ht. apply nodup_app; [apply strided_nodup; lia| |].
    + destruct (Nat.ltb t (size mod 256)); repeat constructor. intros [].
    + intros c Hc. apply strided_spec in Hc; [|lia]. destruct (Nat.ltb t (size mod 256)); [|intros []]. intros [E|[]]. lia.
  - assert (G : forall t c, (t < 256)%nat -> In c (strided 256 (size / 256) t ++ (if Nat.ltb t (size mod 256) then [t + size / 256 * 256]%nat else [])) -> (c mod 256 = t)%nat).
    { intros t c Ht Hc. apply in_app_iff in Hc. destruct Hc as [Hc|Hc]; [apply strided_spec in Hc; [apply Hc|lia]|].
      destruct (Nat.ltb t (size mod 256)); [|contradiction]. destruct Hc as [<-|[]]. rewrite Nat.mod_add by lia. apply Nat.mod_small. exact Ht. }
    intros t t' c Ht Ht' Hc Hc'. apply in_seq in Ht, Ht'. rewrite <- (G t c) by (assumption || lia). apply (G t' c); [lia|assumption].
Qed.
Lemma body_cells_in base c : In c (flat_map (fun t => map (fun c => base + c)%nat (strided T (2 * opt) t)) (seq 0 T)) <-> (base <= c < base + N)%nat.
Proof.
  rewrite in_flat_map. assert (EN : (2 * opt * T = N)%nat) by nia. split.
  - intros (t & Ht & Hc). apply in_seq in Ht. apply in_map_iff in Hc. destruct Hc as (i & <- & Hi). apply strided_spec in Hi; [|lia]. lia.
  - intros Hc. exists ((c - base) mod T)%nat. pose proof (Nat.mod_upper_bound (c - base) T ltac:(lia)). split; [apply in_seq; lia|]. apply in_map_iff. exists (c - base)%nat. split; [lia|]. apply strided_spec; [lia|]. lia.
Qed.
Lemma body_cells_nodup base : NoDup (flat_map (fun t => map (fun c => base + c)%nat (strided T (2 * opt) t)) (seq 0 T)).
Proof.
  apply NoDup_flat_map; [apply seq_NoDup| |].
  - intros t _. apply FinFun.Injective_map_NoDup; [intros a b; lia|apply strided_nodup, HT].
  - intros t t' c Ht Ht' Hc Hc'. apply in_seq in Ht, Ht'. apply in_map_iff in Hc, Hc'. destruct Hc as (i & E & Hi), Hc' as (i' & E' & Hi'). assert (i = i') by lia. subst i'.
    apply strided_spec in Hi, Hi'; [|lia..]. lia.
Qed.
Lemma sub_cells_in c : In c (sub_cells H T opt k) <-> (c < k * N + 1)%nat.
Proof.
  unfold sub_cells. rewrite in_flat_map. assert (EN : (k * (2 * opt) * T = k * N)%nat) by nia. split.
  - intros (t & Ht & Hc). apply in_seq in Ht. apply in_app_iff in Hc. destruct Hc as [Hc|Hc]; [apply strided_spec in Hc; [|lia]; lia|].
    destruct (Nat.eqb t 0); [|contradiction]. destruct Hc as [<-|[]]. lia.
  - intros Hc. destruct (Nat.eq_dec c (k * N)) as [->|].
    + exists 0%nat. split; [apply in_seq; lia|]. apply in_app_iff. right. left. reflexivity.
    + exists (c mod T)%nat. pose proof (Nat.mod_upper_bound c T ltac:(lia)). split; [apply in_seq; lia|]. apply in_app_iff. left. apply strided_spec; [lia|]. lia.
Qed.
Lemma sub_cells_nodup : NoDup (sub_cells H T opt k).
Proof.
  unfold sub_cells. assert (EN : (k * (2 * opt) * T = k * N)%nat) by nia. apply NoDup_flat_map; [apply seq_NoDup| |].
  - intros t Ht. apply in_seq in Ht. apply nodup_app; [apply strided_nodup, HT| |].
    + destruct (Nat.eqb t 0); repeat constructor. intros [].
    + intros c Hc. apply strided_spec in Hc; [|lia]. destruct (Nat.eqb t 0); [|intros []]. intros [E|[]]. lia.
  - intros t t' c Ht Ht' Hc Hc'. apply in_seq in Ht, Ht'. apply in_app_iff in Hc, Hc'. destruct Hc as [Hc|Hc], Hc' as [Hc'|Hc'].
    + apply strided_spec in Hc, Hc'; [|lia..]. lia.
    + apply strided_spec in Hc; [|lia]. destruct (Nat.eqb t' 0); [|contradiction]. destruct Hc' as [E|[]]. lia.
    + apply strided_spec in Hc'; [|lia]. destruct (Nat.eqb t 0); [|contradiction]. destruct Hc as [E|[]]. lia.
    + destruct (Nat.eqb_spec t 0); [|contradiction]. destruct (Nat.eqb_spec t' 0); [|contradiction]. lia.
Qed.
Lemma shift_cells_in c : In c (shift_cells H T opt k) <-> (c < k * N + 1)%nat.
Proof.
  unfold shift_cells. rewrite in_flat_map. assert (EN : (2 * opt * T = N)%nat) by nia. split.
  - intros (b & Hb & Hc). apply in_seq in Hb. apply in_flat_map in Hc. destruct Hc as (t & Ht & Hc). apply in_seq in Ht. apply in_app_iff in Hc. destruct Hc as [Hc|Hc].
    + apply in_map_iff in Hc. destruct Hc as (i & <- & Hi). apply strided_spec in Hi; [|lia]. nia.
    + destruct (Nat.eqb t 0 && Nat.eqb b 0)%bool; [|contradiction]. destruct Hc as [<-|[]]. lia.
  - intros Hc. destruct (Nat.eq_dec c (k * N)) as [->|].
    + exists 0%nat. split; [apply in_seq; lia|]. apply in_flat_map. exists 0%nat. split; [apply in_seq; lia|]. apply in_app_iff. right. left. reflexivity.
    + exists (c / N)%nat. assert (HN : (N <> 0)%nat) by (intros E; rewrite E in *; lia). pose proof (Nat.div_mod c N HN) as D. pose proof (Nat.mod_upper_bound c N HN) as B. split; [apply in_seq; split; [apply Nat.le_0_l|]; apply Nat.div_lt_upper_bound; [exact HN|]; rewrite (Nat.mul_comm N); cbn [Nat.add]; clear D B; lia|].
      apply in_flat_map. exists ((c mod N) mod T)%nat. pose proof (Nat.mod_upper_bound (c mod N) T ltac:(lia)). split; [apply in_seq; lia|]. apply in_app_iff. left. apply in_map_iff.
      exists (c mod N)%nat. split; [rewrite (Nat.mul_comm _ N); symmetry; exact D|]. apply strided_spec; [lia|]. rewrite EN. split; [reflexivity|exact B].
Qed.
Lemma shift_cells_nodup : NoDup (shift_cells H T opt k).
Proof.
  unfold shift_cells. assert (EN : (2 * opt * T = N)%nat) by nia.
  assert (G : forall b t c, (b < k)%nat -> (t < T)%nat -> In c (map (fun c => b * N + c)%nat (strided T (2 * opt) t) ++ (if Nat.eqb t 0 && Nat.eqb b 0 then [k * N]%nat else [])) ->
    (b * N <= c < b * N + N /\ (c - b * N) mod T = t)%nat \/ (t = 0 /\ b = 0 /\ c = k * N)%nat).
  { intros b t c Hb Ht Hc. apply in_app_iff in Hc. destruct Hc as [Hc|Hc].
    - apply in_map_iff in Hc. destruct Hc as (i & <- & Hi). apply strided_spec in Hi; [|lia]. left. replace (b * N + i - b * N)%nat with i by lia. lia.
    - destruct (Nat.eqb_spec t 0), (Nat.eqb_spec b 0); cbn [andb] in Hc; try contradiction. destruct Hc as [<-|[]]. right. auto. }
  apply NoDup_flat_map; [apply seq_NoDup| |].
  - intros b Hb. apply in_seq in Hb. apply NoDup_flat_map; [apply seq_NoDup| |].
    + intros t Ht. apply in_seq in Ht. apply nodup_app; [apply FinFun.Injective_map_NoDup; [intros u v; lia|apply strided_nodup, HT]| |].
      * destruct (Nat.eqb t 0 && Nat.eqb b 0)%bool; repeat constructor. intros [].
      * intros c Hc. apply in_map_iff in Hc. destruct Hc as (i & <- & Hi). apply strided_spec in Hi; [|lia]. destruct (Nat.eqb t 0 && Nat.eqb b 0)%bool; [|intros []]. intros [E|[]]. assert ((b + 1) * N <= k * N)%nat by (apply Nat.mul_le_mono_r; lia). lia.
    + intros t t' c Ht Ht' Hc Hc'. apply in_seq in Ht, Ht'. apply G in Hc, Hc'; try lia. assert (B : ((b + 1) * N <= k * N)%nat) by (apply Nat.mul_le_mono_r; lia). clear G HH EN. destruct Hc as [Hc|Hc], Hc' as [Hc'|Hc']; lia.
  - intros b b' c Hb Hb' Hc Hc'. apply in_seq in Hb, Hb'. apply in_flat_map in Hc, Hc'. destruct Hc as (t & Ht & Hc), Hc' as (t' & Ht' & Hc'). apply in_seq in Ht, Ht'. apply G in Hc, Hc'; try lia.
    assert (forall u v c, (u * N <= c < u * N + N -> v * N <= c < v * N + N -> u = v)%nat) as I by (intros; nia).
    destruct Hc as [Hc|Hc], Hc' as [Hc'|Hc'].
    + apply (I b b' c); [apply Hc|apply Hc'].
    + exfalso. destruct Hc' as (_ & _ & ->). destruct Hc as [Hc _]. assert ((b + 1) * N <= k * N)%nat by (apply Nat.mul_le_mono_r; lia). lia.
    + exfalso. destruct Hc as (_ & _ & ->). destruct Hc' as [Hc' _]. assert ((b' + 1) * N <= k * N)%nat by (apply Nat.mul_le_mono_r; lia). lia.
    + lia.
Qed.
End Cells.
