(** * Blocks that do not race give one result, whatever the interleaving *)
From Verif Require Import Base CudaBlockModel CudaBlockProofs CudaGridModel.
Local Open Scope nat_scope.

Section Grid.
Context {A V : Type} (eqb : A -> A -> bool) (ok global : A -> bool) (G T : nat).
Hypothesis (eqb_eq : forall a b, eqb a b = true <-> a = b) (HT : 0 < T).
Notation mem := (mem A V).
Notation gop := (gop A V).
Notation seg := (seg A V).
Notation aseg := (aseg (A := A) (V := V)).
Notation bview := (block_view (V := V) global).
Notation meaning := (meaning (V := V) eqb T).

(** Between two grid barriers a cell of global memory belongs to one block, or to none and all may read it. *)
Definition gowners := A -> option nat.
Definition fits (gown : gowners) (i : nat) (o : gop) : Prop :=
  match o with GSync => True | GOp rs c _ => (global c = true -> gown c = Some i) /\ Forall (fun r => global r = true -> gown r = Some i \/ gown r = None) rs end.
Definition vis (gown : gowners) (i : nat) (c : A) : Prop := global c = true -> gown c = Some i \/ gown c = None.

Lemma firstn_all_of {B} (P : B -> Prop) l n : Forall P l -> Forall P (firstn n l).
Proof. rewrite !Forall_forall. intros H x Hx. apply H. rewrite <- (firstn_skipn n l). apply in_or_app. auto. Qed.
Lemma skipn_all_of {B} (P : B -> Prop) l n : Forall P l -> Forall P (skipn n l).
Proof. rewrite !Forall_forall. intros H x Hx. apply H. rewrite <- (firstn_skipn n l). apply in_or_app. auto. Qed.
(** A step of a block reads only what it sees and changes only what it owns. *)
Lemma step_vis gown i choice ts (m v : mem) : Forall (Forall (fits gown i)) ts -> (forall c, vis gown i c -> m c = v c) ->
  match gblock_step eqb ok choice (GBlock ts m) with
  | Panic => gblock_step eqb ok choice (GBlock ts v) = Panic
  | Ret None => gblock_step eqb ok choice (GBlock ts v) = Ret None
  | Ret (Some k) => exists k', gblock_step eqb ok choice (GBlock ts v) = Ret (Some k') /\ g_threads k' = g_threads k /\ Forall (Forall (fits gown i)) (g_threads k) /\
      (forall c, vis gown i c -> g_mem k c = g_mem k' c) /\ (forall c, global c = true -> gown c <> Some i -> g_mem k' c = v c)
  end.
Proof.
  intros Hf E. unfold gblock_step. cbn [g_threads g_mem]. set (ready := filter _ _). destruct ready as [|t0 rest0].
  - destruct (forallb g_finished ts); [reflexivity|]. destruct (forallb g_waiting ts); [|reflexivity].
    eexists. split; [reflexivity|]. split; [reflexivity|]. cbn [g_threads g_mem]. split; [|auto].
    rewrite Forall_forall in Hf |- *. intros x Hx. apply in_map_iff in Hx. destruct Hx as (y & <- & Hy). specialize (Hf y Hy). destruct Hf; [constructor|assumption].
  - set (t := nth (choice mod length (t0 :: rest0)) (t0 :: rest0) 0). destruct (nth t ts []) as [|o rest] eqn:En; [reflexivity|].
    assert (Hn : Forall (fits gown i) (o :: rest)).
    { rewrite <- En. destruct (Nat.lt_ge_cases t (length ts)) as [L|L]; [rewrite Forall_forall in Hf; apply Hf, nth_In, L|]. rewrite nth_overflow by exact L. constructor. }
    inversion Hn as [|? ? Ho Hr]; subst. destruct o as [|rs d f]; [reflexivity|]. cbn [gexec]. destruct (forallb ok (d :: rs)); [|reflexivity]. cbn [assert_ obind].
    destruct Ho as [Hd Hrs].
    assert (Ev : map m rs = map v rs) by (apply map_ext_in; intros r Hin; rewrite Forall_forall in Hrs; apply E; exact (Hrs r Hin)).
    eexists. split; [reflexivity|]. cbn [g_threads g_mem]. split; [reflexivity|]. split.
    { apply Forall_app. split; [apply firstn_all_of, Hf|]. constructor; [exact Hr|]. apply (skipn_all_of _ ts (S t)), Hf. }
    rewrite Ev. split.
    + intros c Hc. unfold upd. destruct (eqb c d); [reflexivity|]. apply E, Hc.
    + intros c Hc Hg. unfold upd. destruct (eqb c d) eqn:Ec; [|reflexivity]. apply eqb_eq in Ec. subst. exfalso. apply Hg, Hd, Hc.
Qed.

(** ** One part, until all blocks have reached the grid barrier *)
Section Part.
Context (gown : gowners) (gm0 : mem) (final : nat -> mem).
Definition inpart (g : grid A V) : Prop :=
  (forall i, i < G -> exists m, sched eqb ok T (final i) (GBlock (gr_code g i) m) /\ (forall c, vis gown i c -> m c = bview (gr_private g) (gr_global g) i c) /\ Forall (Forall (fits gown i)) (gr_code g i)) /\
  (forall c, global c = true -> (forall i, i < G -> gown c <> Some i) -> gr_global g c = gm0 c).
(** The memory after the part *)
Definition joined (pm : nat -> mem) (gm : mem) : Prop :=
  (forall i c, i < G -> global c = false -> pm i c = final i c) /\
  (forall i c, i < G -> global c = true -> gown c = Some i -> gm c = final i c) /\
  (forall c, global c = true -> (forall i, i < G -> gown c <> Some i) -> gm c = gm0 c).
Definition left_to_do (g : grid A V) : nat := list_sum (map (fun i => gop_count (gr_code g i)) (seq 0 G)).
Lemma finished_count ts : forallb (@g_finished A V) ts = true -> gop_count ts = 0.
Proof. unfold gop_count. induction ts as [|t ts IH]; [reflexivity|]. cbn [forallb map]. intros E. apply andb_true_iff in E. destruct E as [E1 E2]. change (length t + list_sum (map (@length _) ts) = 0). rewrite IH by exact E2. destruct t; [reflexivity|discriminate]. Qed.
Lemma list_sum_lt f g n i : i < n -> f i < g i -> (forall j, j <> i -> f j = g j) -> list_sum (map f (seq 0 n)) < list_sum (map g (seq 0 n)).
Proof.
  intros Hi Hlt Heq. replace n with (i + S (n - i - 1)) by lia. rewrite seq_app, !map_app, !list_sum_app. cbn [seq map]. change (list_sum (?x :: ?y)) with (x + list_sum y).
  rewrite (map_ext_in f g (seq 0 i)) by (intros j Hj%in_seq; apply Heq; lia). rewrite (map_ext_in f g (seq (S (0 + i)) (n - i - 1))) by (intros j Hj%in_seq; apply Heq; lia). rewrite Nat.add_0_l. lia.
Qed.
Lemma part_step choice g : inpart g ->
  (filter (fun i => negb (forallb g_finished (gr_code g i))) (seq 0 G) = [] /\ joined (gr_private g) (gr_global g)) \/
  (exists g', grid_step eqb ok global G T choice g = Ret (Some g') /\ inpart g' /\ gr_later g' = gr_later g /\ left_to_do g' < left_to_do g).
Proof.
  intros [Hb Hn]. set (ready := filter _ _). destruct ready as [|i0 rest] eqn:Er.
  - left. split; [reflexivity|].
    assert (Hfin : forall i, i < G -> forall c, vis gown i c -> bview (gr_private g) (gr_global g) i c = final i c).
    { intros i Hi c Hc. assert (Ef : forallb g_finished (gr_code g i) = true).
      { destruct (forallb g_finished (gr_code g i)) eqn:E; [reflexivity|]. exfalso. assert (Hin : In i ready) by (apply filter_In; split; [apply in_seq; lia|rewrite E; reflexivity]). rewrite Er in Hin. exact Hin. }
      destruct (Hb i Hi) as (m & Hs & Hm & _). destruct (step_ok eqb ok eqb_eq T (final i) 0 _ HT Hs) as [[_ Em]|(k' & _ & _ & L)].
      - rewrite <- Hm by exact Hc. apply Em.
      - cbn [g_threads] in L. rewrite (finished_count _ Ef) in L. lia. }
    split; [|split; [|exact Hn]].
    + intros i c Hi Hc. rewrite <- (Hfin i Hi c) by (intros E; congruence). unfold block_view. rewrite Hc. reflexivity.
    + intros i c Hi Hc Hg. rewrite <- (Hfin i Hi c) by (intros _; auto). unfold block_view. rewrite Hc. reflexivity.
  - right. unfold grid_step. fold ready. rewrite Er. set (i := nth (fst choice mod length (i0 :: rest)) (i0 :: rest) 0).
    assert (Hin : In i ready) by (rewrite Er; apply nth_In, Nat.mod_upper_bound; discriminate). apply filter_In in Hin. destruct Hin as [Hin Hnf]. apply in_seq in Hin. assert (Hi : i < G) by lia. clearbody i. clear Hin.
    destruct (Hb i Hi) as (m & Hs & Hm & Hf). pose proof (step_vis gown i (snd choice) (gr_code g i) m _ Hf Hm) as SV.
    destruct (step_ok eqb ok eqb_eq T (final i) (snd choice) _ HT Hs) as [[E _]|(k & E & Hs' & L)]; rewrite E in SV.
    { exfalso. unfold gblock_step in E. cbn [g_threads] in E. apply negb_true_iff in Hnf. destruct (filter _ _) as [|a l] in E; [rewrite Hnf in E; destruct (forallb g_waiting _) in E; discriminate|].
      destruct (nth _ (gr_code g i) []) in E; [discriminate|]. destruct (gexec _ _ _ _) in E; discriminate. }
    destruct SV as (k' & E' & Et & Hf' & Hv & Hu). rewrite E'. cbn [obind]. eexists. split; [reflexivity|]. split; [|split; [reflexivity|]].
    + split.
      * intros j Hj. cbn [gr_code gr_private gr_global]. unfold set_at. destruct (Nat.eqb_spec j i) as [->|Hne].
        -- exists (g_mem k). rewrite Et. split; [destruct k; exact Hs'|]. split; [|exact Hf'].
           intros c Hc. rewrite (Hv c Hc). unfold block_view. rewrite Nat.eqb_refl. destruct (global c); reflexivity.
        -- destruct (Hb j Hj) as (mj & Hsj & Hmj & Hfj). exists mj. split; [exact Hsj|]. split; [|exact Hfj].
           intros c Hc. rewrite (Hmj c Hc). unfold block_view. destruct (global c) eqn:Eg; [|destruct (Nat.eqb_spec j i); [contradiction|reflexivity]].
           rewrite Hu; [unfold block_view; rewrite Eg; reflexivity|exact Eg|]. destruct (Hc Eg) as [Ec|Ec]; congruence.
      * intros c Hc Hno. cbn [gr_global]. rewrite Hc. rewrite Hu; [unfold block_view; rewrite Hc; apply Hn; assumption|exact Hc|apply Hno, Hi].
    + unfold left_to_do. cbn [gr_code]. apply (list_sum_lt _ _ G i Hi); unfold set_at; [rewrite Nat.eqb_refl, Et; exact L|].
      intros j Hj. destruct (Nat.eqb_spec j i); [contradiction|reflexivity].
Qed.
End Part.

(** ** Sequences of parts *)
(** A part, given for every block: whatever the memory that satisfies [I], no two blocks race, and [J] holds after it. *)
Definition gpart (p : nat -> list seg) (I J : (nat -> mem) -> mem -> Prop) : Prop := forall pm gm, I pm gm -> exists gown (a : nat -> list aseg),
  (forall i, i < G -> map erase (a i) = p i /\ disciplined ok T None (a i) /\ forall t, t < T -> Forall (fits gown i) (thread_code (p i) t)) /\
  forall pm' gm', joined gown gm (fun i => meaning (a i) (bview pm gm i)) pm' gm' -> J pm' gm'.
Inductive gparts : list (nat -> list seg) -> ((nat -> mem) -> mem -> Prop) -> ((nat -> mem) -> mem -> Prop) -> Prop :=
  | gparts_nil I : gparts [] I I
  | gparts_cons p ps I M J : gpart p I M -> gparts ps M J -> gparts (p :: ps) I J.
Lemma gparts_app ps qs I M J : gparts ps I M -> gparts qs M J -> gparts (ps ++ qs) I J.
Proof. intros H1 H2. induction H1; [exact H2|]. econstructor; [eassumption|auto]. Qed.
Lemma gparts_one p I J : gpart p I J -> gparts [p] I J.
Proof. intros H. econstructor; [exact H|constructor]. Qed.
Lemma gparts_loop (f : nat -> list (nat -> list seg)) (Inv : nat -> (nat -> mem) -> mem -> Prop) n a :
  (forall i, i < n -> gparts (f (a + i)) (Inv i) (Inv (S i))) -> gparts (flat_map f (seq a n)) (Inv 0) (Inv n).
Proof.
  revert a Inv. induction n as [|n IH]; intros a Inv Hf; [constructor|]. cbn [seq flat_map]. apply gparts_app with (Inv 1).
  - rewrite <- (Nat.add_0_r a). apply Hf. lia.
  - apply (IH (S a) (fun i => Inv (S i))). intros i Hi. replace (S a + i) with (a + S i) by lia. apply Hf. lia.
Qed.
Lemma thread_code_fits gown i a m p : map erase a = p -> disciplined ok T None a -> (forall t, t < T -> Forall (fits gown i) (thread_code p t)) ->
  sched eqb ok T (meaning a m) (GBlock (map (thread_code p) (seq 0 T)) m) /\ Forall (Forall (fits gown i)) (map (thread_code p) (seq 0 T)).
Proof.
  intros <- Hd Hf. split.
  - destruct (split_first eqb ok eqb_eq T a None Hd) as (_ & H2 & H3 & H4).
    exists (fst (fst (split_phases a))), (snd (fst (split_phases a))), (snd (split_phases a)), m, (fun _ => []), (snd (fst (split_phases a))).
    split; [exact H3|]. split; [exact H2|]. split; [reflexivity|]. cbn [g_threads g_mem]. split; [apply map_ext; intros t; apply split_code|]. split.
    + intros c. destruct (fst (fst (split_phases a)) c) as [t|]; [|reflexivity]. destruct (t <? T); reflexivity.
    + exact (H4 m).
  - apply Forall_forall. intros x Hx. apply in_map_iff in Hx. destruct Hx as (t & <- & Ht%in_seq). apply Hf. lia.
Qed.
Definition started (p : nat -> list seg) (ps : list (nat -> list seg)) (pm : nat -> mem) (gm : mem) : grid A V :=
  Grid (fun i => map (thread_code (p i)) (seq 0 T)) (fun i => map (fun p => p i) ps) pm gm.
Lemma joined_ext gown gm final pm' gm' pm'' gm'' : (forall i c, pm' i c = pm'' i c) -> (forall c, gm' c = gm'' c) -> joined gown gm final pm' gm' -> joined gown gm final pm'' gm''.
Proof.
  intros E1 E2 (J1 & J2 & J3). split; [|split].
  - intros i c Hi Hc. rewrite <- E1. auto.
  - intros i c Hi Hc Hg. rewrite <- E2. auto.
  - intros c Hc Hn. rewrite <- E2. auto.
Qed.
Lemma forallb_seq (f : nat -> bool) n : forallb f (seq 0 n) = true <-> forall i, i < n -> f i = true.
Proof. rewrite forallb_forall. split; intros H i Hi; [apply H, in_seq; lia|apply in_seq in Hi; apply H; lia]. Qed.

Lemma later_run ps M J : gparts ps M J -> 0 < G -> forall p I pm gm, gpart p I M -> I pm gm -> forall fuel choices,
  list_sum (map (fun q => S (list_sum (map (fun i => part_count T (q i)) (seq 0 G)))) (p :: ps)) <= fuel ->
  exists pm' gm', grid_run eqb ok global G T fuel choices (started p ps pm gm) = Ret gm' /\ J pm' gm'.
Proof.
  intros Hps HG. induction Hps as [M|q ps M M' J Hq Hps IH]; intros p I pm gm Hp Hi fuel choices Hfuel.
  - (* the last part *)
    destruct (Hp pm gm Hi) as (gown & a & Ha & HJ).
    assert (In : inpart gown gm (fun i => meaning (a i) (bview pm gm i)) (started p [] pm gm)).
    { split; [|reflexivity]. intros i Hi'. destruct (Ha i Hi') as (E & D & F). exists (bview pm gm i). destruct (thread_code_fits gown i (a i) (bview pm gm i) (p i) E D F). auto. }
    assert (El : gr_later (started p [] pm gm) = fun _ => []) by reflexivity.
    assert (Ef : left_to_do (started p [] pm gm) < fuel). { unfold left_to_do, started. cbn [gr_code]. unfold part_count in Hfuel. cbn [map] in Hfuel. change (list_sum [?x]) with (x + 0) in Hfuel. lia. }
    clear Hfuel Hp Hi. revert In El Ef. generalize (started p [] pm gm). revert choices. induction fuel as [|fuel IHf]; intros choices g In El Ef; [lia|].
    cbn [grid_run]. destruct (part_step gown gm _ (hd (0, 0) choices) g In) as [[Er Hj]|(g' & E & In' & El' & L)].
    + unfold grid_step. rewrite Er. rewrite El. rewrite (proj2 (forallb_seq _ _)) by reflexivity. cbn [obind]. exists (gr_private g), (gr_global g). split; [reflexivity|]. apply HJ, Hj.
    + rewrite E. cbn [obind]. apply IHf; [exact In'|rewrite El'; exact El|lia].
  - destruct (Hp pm gm Hi) as (gown & a & Ha & HJ).
    assert (In : inpart gown gm (fun i => meaning (a i) (bview pm gm i)) (started p (q :: ps) pm gm)).
    { split; [|reflexivity]. intros i Hi'. destruct (Ha i Hi') as (E & D & F). exists (bview pm gm i). destruct (thread_code_fits gown i (a i) (bview pm gm i) (p i) E D F). auto. }
    set (rest := list_sum (map (fun q => S (list_sum (map (fun i => part_count T (q i)) (seq 0 G)))) (q :: ps))) in *.
    assert (El : gr_later (started p (q :: ps) pm gm) = fun i => map (fun p => p i) (q :: ps)) by reflexivity.
    assert (Ef : left_to_do (started p (q :: ps) pm gm) + S rest <= fuel) by (rewrite Nat.add_succ_r; exact Hfuel).
    clear Hfuel Hp Hi. revert In El Ef. generalize (started p (q :: ps) pm gm). revert choices. induction fuel as [|fuel IHf]; intros choices g In El Ef; [lia|].
    cbn [grid_run]. destruct (part_step gown gm _ (hd (0, 0) choices) g In) as [[Er Hj]|(g' & E & In' & El' & L)].
    + unfold grid_step. rewrite Er. rewrite El. destruct (forallb _ (seq 0 G)) eqn:E0; [exfalso; rewrite forallb_seq in E0; specialize (E0 0 HG); discriminate|].
      rewrite (proj2 (forallb_seq _ _)) by reflexivity. cbn [obind map hd tl].
      change (Grid _ _ (gr_private g) (gr_global g)) with (started q ps (gr_private g) (gr_global g)). apply (IH q M); [exact Hq|apply HJ, Hj|]. unfold rest in Ef. lia.
    + rewrite E. cbn [obind]. apply IHf; [exact In'|rewrite El'; exact El|lia].
Qed.
Lemma list_sum_cons x l : list_sum (x :: l) = x + list_sum l. Proof. reflexivity. Qed.
Lemma list_sum_swap {B} (f : nat -> B -> nat) ps n : list_sum (map (fun p => list_sum (map (fun i => f i p) (seq 0 n))) ps) = list_sum (map (fun i => list_sum (map (f i) ps)) (seq 0 n)).
Proof.
  induction ps as [|p ps IH].
  - cbn [map]. induction (seq 0 n); [reflexivity|exact IHl].
  - cbn [map]. rewrite list_sum_cons, IH. clear IH. induction (seq 0 n) as [|i l IHl]; [reflexivity|]. cbn [map]. rewrite !list_sum_cons in *. lia.
Qed.
Lemma work_bound (ps : list (nat -> list seg)) : 0 < G -> list_sum (map (fun q => S (list_sum (map (fun i => part_count T (q i)) (seq 0 G)))) ps) <= work G T (fun i => map (fun p => p i) ps).
Proof.
  intros HG. unfold work. rewrite (map_ext (fun i => list_sum (map (fun p => S (part_count T p)) (map (fun p => p i) ps))) (fun i => list_sum (map (fun p => S (part_count T (p i))) ps))) by (intros i; rewrite map_map; reflexivity).
  rewrite <- (list_sum_swap (fun i (p : nat -> list seg) => S (part_count T (p i)))). induction ps as [|p ps IH]; [apply le_n|]. cbn [map]. rewrite !list_sum_cons. apply Nat.add_le_mono; [|exact IH].
  clear - HG. destruct G as [|g]; [lia|]. cbn [seq map]. rewrite !list_sum_cons. induction (seq 1 g) as [|i l IHl]; [apply le_n|]. cbn [map]. rewrite !list_sum_cons in *. lia.
Qed.
Lemma work_ext (f g : nat -> list (list seg)) : (forall i, i < G -> f i = g i) -> work G T f = work G T g.
Proof. intros E. unfold work. f_equal. apply map_ext_in. intros i Hi%in_seq. rewrite E by lia. reflexivity. Qed.

(** The steps of the grid depend only on the blocks it has. *)
Definition same_grid (g h : grid A V) : Prop := (forall i, i < G -> gr_code g i = gr_code h i /\ gr_later g i = gr_later h i /\ gr_private g i = gr_private h i) /\ gr_global g = gr_global h.
Lemma filter_ext_seq (f g : nat -> bool) n : (forall i, i < n -> f i = g i) -> filter f (seq 0 n) = filter g (seq 0 n).
Proof. intros E. apply filter_ext_in. intros i Hi%in_seq. apply E. lia. Qed.
Lemma forallb_ext_seq (f g : nat -> bool) n : (forall i, i < n -> f i = g i) -> forallb f (seq 0 n) = forallb g (seq 0 n).
Proof. intros E. apply eq_true_iff_eq. rewrite !forallb_seq. split; intros H i Hi; [rewrite <- E|rewrite E]; auto. Qed.
Lemma same_step choice g h : same_grid g h ->
  match grid_step eqb ok global G T choice g with
  | Panic => grid_step eqb ok global G T choice h = Panic
  | Ret None => grid_step eqb ok global G T choice h = Ret None
  | Ret (Some g') => exists h', grid_step eqb ok global G T choice h = Ret (Some h') /\ same_grid g' h'
  end.
Proof.
  intros [E Eg]. unfold grid_step.
  rewrite <- (filter_ext_seq (fun i => negb (forallb g_finished (gr_code g i))) (fun i => negb (forallb g_finished (gr_code h i)))) by (intros i Hi; destruct (E i Hi) as (-> & _ & _); reflexivity).
  rewrite <- (forallb_ext_seq (fun i => nil (gr_later g i)) (fun i => nil (gr_later h i))) by (intros i Hi; destruct (E i Hi) as (_ & -> & _); reflexivity).
  rewrite <- (forallb_ext_seq (fun i => negb (nil (gr_later g i))) (fun i => negb (nil (gr_later h i)))) by (intros i Hi; destruct (E i Hi) as (_ & -> & _); reflexivity).
  set (ready := filter _ _). destruct ready as [|i0 rest] eqn:Er.
  - destruct (forallb _ _); [reflexivity|]. destruct (forallb _ _); [|reflexivity]. eexists. split; [reflexivity|]. split; [|exact Eg]. cbn [gr_code gr_later gr_private].
    intros i Hi. destruct (E i Hi) as (_ & -> & ->). auto.
  - set (i := nth (fst choice mod length (i0 :: rest)) (i0 :: rest) 0).
    assert (Hin : In i ready) by (rewrite Er; apply nth_In, Nat.mod_upper_bound; discriminate). apply filter_In in Hin. destruct Hin as [Hin _]. apply in_seq in Hin. assert (Hi : i < G) by lia. clearbody i. clear Hin.
    assert (Ev : bview (gr_private g) (gr_global g) i = bview (gr_private h) (gr_global h) i) by (unfold block_view; destruct (E i Hi) as (_ & _ & ->); rewrite Eg; reflexivity).
    rewrite Ev. destruct (E i Hi) as (-> & _ & _). destruct (gblock_step _ _ _ _) as [[k|]|]; cbn [obind]; try reflexivity.
    eexists. split; [reflexivity|]. split; cbn [gr_code gr_later gr_private gr_global]; [|rewrite Eg; reflexivity].
    intros j Hj. unfold set_at. destruct (E j Hj) as (-> & -> & ->). auto.
Qed.
Lemma same_run fuel : forall choices g h, same_grid g h -> grid_run eqb ok global G T fuel choices g = grid_run eqb ok global G T fuel choices h.
Proof.
  induction fuel as [|fuel IH]; intros choices g h S; [reflexivity|]. cbn [grid_run]. pose proof (same_step (hd (0, 0) choices) g h S) as H.
  destruct (grid_step eqb ok global G T (hd (0, 0) choices) g) as [[g'|]|]; [destruct H as (h' & -> & S'); cbn [obind]; apply IH, S'|rewrite H; cbn [obind]; destruct S as [_ ->]; reflexivity|rewrite H; reflexivity].
Qed.

(** A kernel in which no block writes a cell that another uses before the next grid barrier runs to its end, whatever the interleaving of
    the blocks and of their threads. *)
Theorem grid_launch_ok (kernel : nat -> list (gseg A V)) p ps I J choices private gm : 0 < G -> (forall i, i < G -> parts (kernel i) = map (fun q => q i) (p :: ps)) ->
  gparts (p :: ps) I J -> I private gm -> exists pm' gm', grid_launch eqb ok global G T kernel choices private gm = Ret gm' /\ J pm' gm'.
Proof.
  intros HG Ek Hp Hi. inversion Hp as [|? ? ? M ? Hp1 Hps]; subst. unfold grid_launch. cbv zeta. rewrite (work_ext _ (fun i => map (fun q => q i) (p :: ps)) Ek).
  rewrite (same_run _ _ _ (started p ps private gm)).
  - apply (later_run ps M J Hps HG p I private gm Hp1 Hi). apply Nat.le_trans with (work G T (fun i => map (fun p => p i) (p :: ps))); [apply work_bound, HG|lia].
  - split; [|reflexivity]. intros i Hi'. unfold started. cbn [gr_code gr_later gr_private]. rewrite (Ek i Hi'). auto.
Qed.

(** ** The parts of a kernel *)
Lemma parts_nonempty (k : list (gseg A V)) : exists p ps, parts k = p :: ps.
Proof. destruct k as [|[|s] k]; cbn [parts]; [eauto|eauto|]. destruct (parts k); eauto. Qed.
Lemma parts_blk (k : list seg) : parts (map Blk k) = [k].
Proof. induction k as [|s k IH]; [reflexivity|]. cbn [map parts]. rewrite IH. reflexivity. Qed.
Lemma parts_sync (a b : list (gseg A V)) : parts (a ++ GridSync :: b) = parts a ++ parts b.
Proof.
  induction a as [|[|s] a IH]; [reflexivity|cbn [app parts]; rewrite IH; reflexivity|]. cbn [app parts]. rewrite IH. destruct (parts_nonempty a) as (p & ps & ->). reflexivity.
Qed.
Lemma parts_tail (a : list (gseg A V)) ps q x : parts a = ps ++ [q] -> parts (a ++ map Blk x) = ps ++ [q ++ x].
Proof.
  revert ps q. induction a as [|[|s] a IH]; intros ps q E.
  - cbn [parts] in E. destruct ps as [|p [|]]; try discriminate. injection E as <-. cbn [app]. apply parts_blk.
  - cbn [parts] in E. destruct ps as [|p ps]; cbn [app] in E.
    + exfalso. destruct (parts_nonempty a) as (p' & ps' & E'). rewrite E' in E. discriminate.
    + injection E as <- E. cbn [app parts]. rewrite (IH _ _ E). reflexivity.
  - cbn [parts app] in *. destruct (parts_nonempty a) as (p' & ps' & E'). rewrite E' in E. destruct ps as [|p ps]; cbn [app] in E.
    + injection E as <- E. subst ps'. rewrite (IH [] p') by exact E'. reflexivity.
    + injection E as <- ->. rewrite (IH (p' :: ps) q) by exact E'. reflexivity.
Qed.
End Grid.
