(** * Threads that do not race give one result, whatever the interleaving *)
From Verif Require Import Base CudaBlockModel.

Section Machine.
Context {A V : Type} (eqb : A -> A -> bool) (ok : A -> bool).
Hypothesis eqb_eq : forall a b, eqb a b = true <-> a = b.
Notation upd := (upd (V := V) eqb).
Notation mem := (mem A V).
Notation gop := (gop A V).
Notation seg := (seg A V).

Lemma upd_same (m : mem) c v : upd m c v c = v.
Proof. unfold CudaBlockModel.upd. rewrite (proj2 (eqb_eq c c) eq_refl). reflexivity. Qed.
Lemma upd_other (m : mem) c v d : d <> c -> upd m c v d = m d.
Proof. intros H. unfold CudaBlockModel.upd. destruct (eqb d c) eqn:E; [apply eqb_eq in E; contradiction|reflexivity]. Qed.

(** ** One thread alone *)
Definition exec1 (m : mem) (o : gop) : mem := match o with GSync => m | GOp rs c f => upd m c (f (map m rs)) end.
Definition solo (code : list gop) (m : mem) : mem := fold_left exec1 code m.
Lemma solo_app p q m : solo (p ++ q) m = solo q (solo p m).
Proof. apply fold_left_app. Qed.

(** ** Owners: between two barriers a cell belongs to one thread, which may read and write it, or to none, and all may read it. *)
Definition owners := A -> option nat.
Definition acc_ok (own : owners) (t : nat) (o : gop) : Prop :=
  match o with GSync => False
  | GOp rs c f => own c = Some t /\ ok c = true /\ Forall (fun r => ok r = true /\ (own r = Some t \/ own r = None)) rs
  end.
Definition respects (own : owners) (T : nat) (f : nat -> list gop) : Prop := forall t, (t < T)%nat -> Forall (acc_ok own t) (f t).
Definition par (T : nat) (own : owners) (f : nat -> list gop) (m : mem) : mem :=
  fun c => match own c with Some t => if (t <? T)%nat then solo (f t) m c else m c | None => m c end.

Definition sees (own : owners) (t : nat) (c : A) : Prop := own c = Some t \/ own c = None.
Lemma exec1_sees own t o m m' : acc_ok own t o -> (forall c, sees own t c -> m c = m' c) -> forall c, sees own t c -> exec1 m o c = exec1 m' o c.
Proof.
  intros Ho H c Hc. destruct o as [|rs d f]; cbn [exec1]; [auto|]. destruct Ho as (_ & _ & Hr). unfold CudaBlockModel.upd.
  destruct (eqb c d); [|auto]. f_equal. apply map_ext_in. intros r Hin. rewrite Forall_forall in Hr. apply H, Hr, Hin.
Qed.
Lemma solo_sees own t code : Forall (acc_ok own t) code -> forall m m', (forall c, sees own t c -> m c = m' c) -> forall c, sees own t c -> solo code m c = solo code m' c.
Proof.
  induction 1 as [|o code Ho Hc IH]; intros m m' H c Hs; [auto|]. unfold solo. cbn [fold_left]. apply (IH (exec1 m o) (exec1 m' o)); [|exact Hs].
  intros d Hd. apply (exec1_sees own t); auto.
Qed.
Lemma solo_foreign own t code : Forall (acc_ok own t) code -> forall m c, own c <> Some t -> solo code m c = m c.
Proof.
  induction 1 as [|o code Ho Hc IH]; intros m c Hn; [reflexivity|]. unfold solo. cbn [fold_left]. fold (solo code (exec1 m o)). rewrite (IH _ _ Hn).
  destruct o as [|rs d f]; [reflexivity|]. cbn [exec1]. apply upd_other. intros ->. apply Hn, Ho.
Qed.
Lemma solo_ext code : forall m m', (forall c, m c = m' c) -> forall c, solo code m c = solo code m' c.
Proof.
  induction code as [|o code IH]; intros m m' H c; [apply H|]. unfold solo. cbn [fold_left]. apply IH. intros d. destruct o as [|rs e f]; cbn [exec1]; [apply H|].
  unfold CudaBlockModel.upd. destruct (eqb d e); [|apply H]. f_equal. apply map_ext. exact H.
Qed.
Lemma par_ext T own f m m' : (forall c, m c = m' c) -> forall c, par T own f m c = par T own f m' c.
Proof. intros H c. unfold par. destruct (own c) as [t|]; [|auto]. destruct (t <? T)%nat; [apply solo_ext, H|auto]. Qed.
Lemma par_app T own f g m : respects own T f -> respects own T g -> forall c, par T own (fun t => f t ++ g t) m c = par T own g (par T own f m) c.
Proof.
  intros Hf Hg c. unfold par at 1 2. destruct (own c) as [t|] eqn:Ec; [|unfold par; rewrite Ec; reflexivity].
  destruct (Nat.ltb_spec t T) as [Ht|Ht]; [|unfold par; rewrite Ec; destruct (Nat.ltb_spec t T); [lia|reflexivity]].
  rewrite solo_app. apply (solo_sees own t); [apply Hg, Ht| |left; exact Ec].
  intros d [Hd|Hd]; unfold par; rewrite Hd.
  - destruct (Nat.ltb_spec t T); [reflexivity|lia].
  - apply (solo_foreign own t); [apply Hf, Ht|congruence].
Qed.
Lemma par_nil T own m c : par T own (fun _ => []) m c = m c.
Proof. unfold par. destruct (own c) as [t|]; [|reflexivity]. destruct (t <? T)%nat; reflexivity. Qed.

(** ** Phases *)
Definition phase : Type := owners * (nat -> list gop).
Definition after (q : list phase) (t : nat) : list gop := flat_map (fun p => GSync :: snd p t) q.
Definition results (T : nat) (q : list phase) (m : mem) : mem := fold_left (fun m p => par T (fst p) (snd p) m) q m.
Lemma results_ext T q : forall m m', (forall c, m c = m' c) -> forall c, results T q m c = results T q m' c.
Proof. induction q as [|p q IH]; intros m m' H c; [apply H|]. unfold results. cbn [fold_left]. apply IH. apply par_ext, H. Qed.

(** What holds at any time of the execution *)
Definition sched (T : nat) (final : mem) (k : gblock (A := A) (V := V)) : Prop :=
  exists own f q M dn rs,
    respects own T f /\ Forall (fun p => respects (fst p) T (snd p)) q /\
    (forall t, (t < T)%nat -> f t = dn t ++ rs t) /\
    g_threads k = map (fun t => rs t ++ after q t) (seq 0 T) /\
    (forall c, g_mem k c = match own c with Some t => if (t <? T)%nat then solo (dn t) M c else M c | None => M c end) /\
    (forall c, results T q (par T own f M) c = final c).

Lemma no_sync own t code : Forall (acc_ok own t) code -> match code with GSync :: _ => False | _ => True end.
Proof. destruct 1 as [|o code Ho _]; [exact I|]. destruct o; [exact Ho|exact I]. Qed.
Lemma nth_map_seq {B} (g : nat -> B) T t d : (t < T)%nat -> nth t (map g (seq 0 T)) d = g t.
Proof. intros H. rewrite (nth_indep _ d (g 0%nat)) by (rewrite map_length, seq_length; exact H). rewrite map_nth, seq_nth by exact H. reflexivity. Qed.
Lemma map_seq_split {B} (g : nat -> B) T t x : (t < T)%nat ->
  firstn t (map g (seq 0 T)) ++ x :: skipn (S t) (map g (seq 0 T)) = map (fun u => if Nat.eqb u t then x else g u) (seq 0 T).
Proof.
  intros H. replace T with (t + S (T - t - 1))%nat by lia. rewrite seq_app, !map_app. cbn [seq map].
  assert (L : length (map g (seq 0 t)) = t) by (rewrite map_length; apply seq_length).
  rewrite firstn_app, L, Nat.sub_diag, firstn_O, app_nil_r, firstn_all2 by lia.
  rewrite skipn_app, L, skipn_all2 by lia. replace (S t - t)%nat with 1%nat by lia. cbn [skipn app]. rewrite Nat.add_0_l, Nat.eqb_refl.
  f_equal; [|f_equal].
  - apply map_ext_in. intros u Hu. apply in_seq in Hu. destruct (Nat.eqb_spec u t); [lia|reflexivity].
  - apply map_ext_in. intros u Hu. apply in_seq in Hu. destruct (Nat.eqb_spec u t); [lia|reflexivity].
Qed.
Lemma list_sum_repl (g : nat -> list gop) T t x o : (t < T)%nat -> g t = o :: x ->
  gop_count (map g (seq 0 T)) = S (gop_count (map (fun u => if Nat.eqb u t then x else g u) (seq 0 T))).
Proof.
  intros H E. unfold gop_count. rewrite !map_map. replace T with (t + S (T - t - 1))%nat by lia. rewrite seq_app, !map_app. cbn [seq map]. rewrite !list_sum_app.
  change (list_sum (length (g (0 + t)%nat) :: ?l)) with (length (g (0 + t)%nat) + list_sum l)%nat.
  rewrite Nat.add_0_l, Nat.eqb_refl. match goal with |- context [list_sum (length x :: ?l)] => change (list_sum (length x :: l)) with (length x + list_sum l)%nat end. rewrite E. cbn [length].
  rewrite (map_ext_in (fun u => length (if Nat.eqb u t then x else g u)) (fun u => length (g u)) (seq 0 t)).
  2:{ intros u Hu. apply in_seq in Hu. destruct (Nat.eqb_spec u t); [lia|reflexivity]. }
  rewrite (map_ext_in (fun u => length (if Nat.eqb u t then x else g u)) (fun u => length (g u)) (seq (S t) (T - t - 1))).
  2:{ intros u Hu. apply in_seq in Hu. destruct (Nat.eqb_spec u t); [lia|reflexivity]. }
  lia.
Qed.

Lemma forallb_map_seq {B} (P : B -> bool) g T : forallb P (map g (seq 0 T)) = true <-> forall t, (t < T)%nat -> P (g t) = true.
Proof.
  rewrite forallb_forall. split.
  - intros H t Ht. apply H, in_map, in_seq. lia.
  - intros H x Hx. apply in_map_iff in Hx. destruct Hx as (t & <- & Ht). apply H. apply in_seq in Ht. lia.
Qed.

Lemma step_ok T final choice k : (0 < T)%nat -> sched T final k ->
  (gblock_step eqb ok choice k = Ret None /\ forall c, g_mem k c = final c) \/
  (exists k', gblock_step eqb ok choice k = Ret (Some k') /\ sched T final k' /\ (gop_count (g_threads k') < gop_count (g_threads k))%nat).
Proof.
  intros HT (own & f & q & M & dn & rs & Hf & Hq & Hsp & Hth & Hm & Hr). unfold gblock_step.
  set (ready := filter _ _). destruct ready as [|t0 rest0] eqn:Er.
  - assert (Hrs : forall t, (t < T)%nat -> rs t = []).
    { intros t Ht. destruct (rs t) as [|o r] eqn:E; [reflexivity|]. exfalso.
      assert (Hi : In t ready). { apply filter_In. rewrite Hth, map_length, seq_length. split; [apply in_seq; lia|]. rewrite nth_map_seq by exact Ht. rewrite E. cbn [app g_runnable].
        pose proof (Hf t Ht) as F. rewrite (Hsp t Ht), E, Forall_app in F. destruct F as [_ F]. apply no_sync in F. destruct o; [contradiction|reflexivity]. }
      rewrite Er in Hi. exact Hi. }
    assert (Hmp : forall c, g_mem k c = par T own f M c).
    { intros c. rewrite Hm. unfold par. destruct (own c) as [t|]; [|reflexivity]. destruct (Nat.ltb_spec t T) as [Ht|Ht]; [|reflexivity]. rewrite (Hsp t Ht), (Hrs t Ht), app_nil_r. reflexivity. }
    assert (Hth2 : g_threads k = map (after q) (seq 0 T)).
    { rewrite Hth. apply map_ext_in. intros t Ht. apply in_seq in Ht. rewrite Hrs by lia. reflexivity. }
    destruct q as [|p q].
    + left. rewrite Hth2. rewrite (proj2 (forallb_map_seq _ _ _)) by reflexivity. split; [reflexivity|]. intros c. rewrite Hmp. apply Hr.
    + right. rewrite Hth2. destruct (forallb g_finished _) eqn:Ef.
      { pose proof (proj1 (forallb_map_seq _ _ _) Ef 0%nat HT) as F. discriminate F. }
      rewrite (proj2 (forallb_map_seq _ _ _)) by reflexivity. eexists. split; [reflexivity|]. split.
      * exists (fst p), (snd p), q, (g_mem k), (fun _ => []), (snd p). inversion Hq as [|? ? Hp Hq']; subst.
        split; [exact Hp|]. split; [exact Hq'|]. split; [reflexivity|]. cbn [g_threads g_mem]. split; [rewrite map_map; reflexivity|]. split.
        -- intros c. destruct (fst p c) as [t|]; [|reflexivity]. destruct (t <? T)%nat; reflexivity.
        -- intros c. rewrite <- Hr. unfold results at 2. cbn [fold_left]. apply results_ext. apply par_ext. exact Hmp.
      * cbn [g_threads]. unfold gop_count. rewrite !map_map. clear - HT. destruct T as [|T]; [lia|]. cbn [seq map]. 
        assert (G : forall l, (list_sum (map (fun t => length (tl (after (p :: q) t))) l) <= list_sum (map (fun t => length (after (p :: q) t)) l))%nat).
        { induction l as [|t l IH]; [apply le_n|]. cbn [map]. change (list_sum (?x :: ?y)) with (x + list_sum y)%nat. cbn [after flat_map tl app length] in *. lia. }
        specialize (G (seq 1 T)). change (list_sum (?x :: ?y)) with (x + list_sum y)%nat. cbn [after flat_map tl app length] in *. lia.
  - right. set (t := nth (choice mod length (t0 :: rest0)) (t0 :: rest0) 0%nat).
    assert (Hin : In t ready). { rewrite Er. apply nth_In. apply Nat.mod_upper_bound. discriminate. }
    apply filter_In in Hin. destruct Hin as [Hin Hrun]. rewrite Hth, map_length, seq_length in Hin. apply in_seq in Hin. assert (Ht : (t < T)%nat) by lia. clear Hin. clearbody t.
    rewrite Hth in Hrun |- *. rewrite nth_map_seq in Hrun |- * by exact Ht.
    destruct (rs t) as [|o r] eqn:Ers.
    { exfalso. cbn [app] in Hrun. destruct q; discriminate Hrun. }
    cbn [app]. pose proof (Hf t Ht) as F. rewrite (Hsp t Ht), Ers, Forall_app in F. destruct F as [F1 F2]. inversion F2 as [|? ? Ho F3]; subst.
    destruct o as [|as_ d g]; [contradiction|]. destruct Ho as (Hod & Hokd & Hoka).
    cbn [gexec]. assert (Ek : forallb ok (d :: as_) = true). { cbn [forallb]. rewrite Hokd. cbn [andb]. apply forallb_forall. intros a Ha. rewrite Forall_forall in Hoka. apply Hoka, Ha. }
    rewrite Ek. cbn [assert_ obind]. eexists. split; [reflexivity|].
    rewrite map_seq_split by exact Ht. split.
    + exists own, f, q, M, (fun u => if Nat.eqb u t then dn t ++ [GOp as_ d g] else dn u), (fun u => if Nat.eqb u t then r else rs u).
      split; [exact Hf|]. split; [exact Hq|]. split.
      { intros u Hu. destruct (Nat.eqb_spec u t) as [->|]; [|apply Hsp, Hu]. rewrite (Hsp t Ht), Ers, <- app_assoc. reflexivity. }
      cbn [g_threads g_mem]. split. { apply map_ext. intros u. destruct (Nat.eqb_spec u t) as [->|]; reflexivity. }
      split; [|exact Hr]. intros c.
      assert (Hv : map (g_mem k) as_ = map (solo (dn t) M) as_).
      { apply map_ext_in. intros a Ha. rewrite Hm. rewrite Forall_forall in Hoka. destruct (Hoka a Ha) as [_ [E|E]]; rewrite E.
        - destruct (Nat.ltb_spec t T); [reflexivity|lia].
        - symmetry. apply (solo_foreign own t); [exact F1|congruence]. }
      destruct (eqb c d) eqn:Ecd.
      * apply eqb_eq in Ecd. subst c. rewrite upd_same, Hod. destruct (Nat.ltb_spec t T); [|lia]. rewrite Nat.eqb_refl, solo_app. cbn [solo fold_left exec1]. rewrite upd_same, Hv. reflexivity.
      * assert (Hcd : c <> d) by (intros ->; rewrite (proj2 (eqb_eq d d) eq_refl) in Ecd; discriminate). rewrite upd_other by exact Hcd. rewrite Hm.
        destruct (own c) as [u|]; [|reflexivity]. destruct (u <? T)%nat; [|reflexivity]. destruct (Nat.eqb_spec u t) as [->|]; [|reflexivity].
        rewrite solo_app. cbn [solo fold_left exec1]. rewrite upd_other by exact Hcd. reflexivity.
    + cbn [g_threads]. rewrite (list_sum_repl (fun u => rs u ++ after q u) T t (r ++ after q t) (GOp as_ d g)); [lia|exact Ht|]. cbv beta. rewrite Ers. reflexivity.
Qed.
Lemma run_ok T final : (0 < T)%nat -> forall fuel choices k, (gop_count (g_threads k) < fuel)%nat -> sched T final k ->
  exists m, gblock_run eqb ok fuel choices k = Ret m /\ forall c, m c = final c.
Proof.
  intros HT. induction fuel as [|fuel IH]; intros choices k Hc Hs; [lia|]. cbn [gblock_run].
  destruct (step_ok T final (hd 0%nat choices) k HT Hs) as [[E Hm]|(k' & E & Hs' & Hl)]; rewrite E; cbn [obind].
  - eexists. split; [reflexivity|exact Hm].
  - apply IH; [lia|exact Hs'].
Qed.

(** ** Kernels annotated with the owners *)
Inductive aseg := ABar | APar (own : owners) (f : nat -> list gop).
Definition erase (s : aseg) : seg := match s with ABar => Bar | APar _ f => Par f end.
(** [cur] are the owners since the last barrier, if a part was already executed since then. *)
Fixpoint disciplined (T : nat) (cur : option owners) (k : list aseg) : Prop :=
  match k with
  | [] => True
  | ABar :: k => disciplined T None k
  | APar own f :: k => match cur with None => True | Some o => forall c, o c = own c end /\ respects own T f /\ disciplined T (Some own) k
  end.
Definition meaning (T : nat) (k : list aseg) (m : mem) : mem :=
  fold_left (fun m s => match s with ABar => m | APar own f => par T own f m end) k m.
Lemma meaning_ext T k : forall m m', (forall c, m c = m' c) -> forall c, meaning T k m c = meaning T k m' c.
Proof. induction k as [|[|own f] k IH]; intros m m' H c; [apply H| |]; unfold meaning; cbn [fold_left]; apply IH; [exact H|apply par_ext, H]. Qed.
Lemma meaning_app T k l m : meaning T (k ++ l) m = meaning T l (meaning T k m).
Proof. apply fold_left_app. Qed.

Fixpoint split_phases (k : list aseg) : phase * list phase :=
  match k with
  | [] => ((fun _ => None, fun _ => []), [])
  | ABar :: k => let (p, q) := split_phases k in ((fun _ => None, fun _ => []), p :: q)
  | APar own f :: k => let (p, q) := split_phases k in ((own, fun t => f t ++ snd p t), q)
  end.
Lemma split_code k t : thread_code (map erase k) t = snd (fst (split_phases k)) t ++ after (snd (split_phases k)) t.
Proof.
  induction k as [|[|own f] k IH]; [reflexivity| |]; unfold thread_code in *; cbn [map flat_map erase split_phases]; rewrite IH; destruct (split_phases k) as [p q]; cbn [fst snd after flat_map app].
  - reflexivity.
  - rewrite app_assoc. reflexivity.
Qed.
Lemma respects_ext own own' T f : (forall c, own c = own' c) -> respects own T f -> respects own' T f.
Proof.
  intros H R t Ht. eapply Forall_impl; [|apply R, Ht]. intros [|rs c g]; [auto|]. intros (H1 & H2 & H3). split; [rewrite <- H; exact H1|]. split; [exact H2|].
  eapply Forall_impl; [|exact H3]. cbv beta. intros a. rewrite H. auto.
Qed.
Lemma par_owners T own own' f m : (forall c, own c = own' c) -> forall c, par T own f m c = par T own' f m c.
Proof. intros H c. unfold par. rewrite H. reflexivity. Qed.
(** The first phase of a kernel: empty, or with the owners of its first part *)
Lemma split_first T k : forall cur, disciplined T cur k ->
  ((forall t, snd (fst (split_phases k)) t = []) \/
   (exists own, (match cur with None => True | Some o => forall c, o c = own c end) /\ fst (fst (split_phases k)) = own /\ respects own T (snd (fst (split_phases k))))) /\
  Forall (fun p => respects (fst p) T (snd p)) (snd (split_phases k)) /\
  respects (fst (fst (split_phases k))) T (snd (fst (split_phases k))) /\
  forall m c, results T (snd (split_phases k)) (par T (fst (fst (split_phases k))) (snd (fst (split_phases k))) m) c = meaning T k m c.
Proof.
  induction k as [|[|own f] k IH]; intros cur H; cbn [split_phases disciplined] in *.
  - cbn [fst snd]. split; [left; reflexivity|]. split; [constructor|]. split; [intros t Ht; constructor|]. intros m c. apply par_nil.
  - destruct (IH None H) as (H1 & H2 & H3 & H4). destruct (split_phases k) as [p q]. cbn [fst snd] in *.
    split; [left; reflexivity|]. split; [constructor; [exact H3|exact H2]|]. split; [intros t Ht; constructor|].
    intros m c. unfold results, meaning. cbn [fold_left]. etransitivity; [|apply H4]. apply results_ext. apply par_ext. intros d. apply par_nil.
  - destruct H as (Hc & Hf & H). destruct (IH (Some own) H) as (H1 & H2 & H3 & H4). destruct (split_phases k) as [p q]. cbn [fst snd] in *.
    assert (Hp : respects own T (snd p)).
    { destruct H1 as [E|(own' & E1 & E2 & E3)]; [intros t Ht; rewrite E; constructor|]. apply (respects_ext own'); [intros c; symmetry; apply E1|exact E3]. }
    assert (HR : respects own T (fun t => f t ++ snd p t)) by (intros t Ht; apply Forall_app; split; [apply Hf, Ht|apply Hp, Ht]).
    split; [right; exists own; auto|]. split; [exact H2|]. split; [exact HR|].
    intros m c. unfold meaning. cbn [fold_left]. etransitivity; [|apply H4]. apply results_ext. intros d. rewrite par_app by assumption.
    destruct H1 as [E|(own' & E1 & E2 & E3)].
    + unfold par at 1 3. assert (N : forall t x, solo (snd p t) x d = x d) by (intros t x; rewrite E; reflexivity).
      destruct (own d) as [t|]; destruct (fst p d) as [u|]; try destruct (t <? T)%nat; try destruct (u <? T)%nat; rewrite ?N; reflexivity.
    + rewrite E2. apply par_owners, E1.
Qed.

(** A kernel in which no thread writes a cell that another uses before the next barrier runs to its end, whatever the interleaving,
    without a deadlock or an access outside memory, and always leaves the same memory. *)
Theorem launch_ok T k choices m : (0 < T)%nat -> disciplined T None k ->
  exists m', launch eqb ok T (map erase k) choices m = Ret m' /\ forall c, m' c = meaning T k m c.
Proof.
  intros HT H. unfold launch. destruct (split_first T k None H) as (_ & H2 & H3 & H4).
  apply (run_ok T); [exact HT|cbn [g_threads]; lia|].
  exists (fst (fst (split_phases k))), (snd (fst (split_phases k))), (snd (split_phases k)), m, (fun _ => []), (snd (fst (split_phases k))).
  split; [exact H3|]. split; [exact H2|]. split; [reflexivity|]. cbn [g_threads g_mem]. split; [apply map_ext; intros t; apply split_code|]. split.
  - intros c. destruct (fst (fst (split_phases k)) c) as [t|]; [|reflexivity]. destruct (t <? T)%nat; reflexivity.
  - exact (H4 m).
Qed.

(** ** A loop with a stride, in which the iterations write different cells *)
Section Items.
Context (own : owners) (T count : nat) (g : nat -> nat -> list gop) (local : A -> bool) (item : A -> option nat) (F : nat -> mem -> mem).
Hypothesis (HT : (0 < T)%nat)
  (H_own : forall c j, local c = false -> item c = Some j -> (j < count * T)%nat -> own c = Some (j mod T)%nat)
  (H_in : forall t m j c, (j < count * T)%nat -> local c = false -> item c = Some j -> solo (g t j) m c = F j m c)
  (H_out : forall t m j c, (j < count * T)%nat -> local c = false -> item c <> Some j -> solo (g t j) m c = m c)
  (H_dep : forall j m m', (j < count * T)%nat -> (forall c, local c = false -> item c = Some j \/ item c = None -> m c = m' c) -> forall c, item c = Some j -> F j m c = F j m' c).
Lemma loop_items t n m c : (n <= count)%nat -> local c = false -> (t < T)%nat ->
  solo (strided T n g t) m c = match item c with Some j => if ((j mod T =? t) && (j <? n * T))%nat then F j m c else m c | None => m c end.
Proof.
  intros Hn Hl Ht. revert c Hl. induction n as [|n IH]; intros c Hl.
  - cbn [strided seq flat_map solo fold_left]. destruct (item c) as [j|]; [|reflexivity]. destruct (Nat.ltb_spec j (0 * T)); [lia|]. rewrite andb_false_r. reflexivity.
  - unfold strided. rewrite seq_S, flat_map_app. cbn [flat_map]. rewrite app_nil_r, solo_app. fold (strided T n g t). cbn [Nat.add].
    set (j := (t + n * T)%nat). assert (Hj : (j < count * T)%nat) by (unfold j; clear - Hn Ht; nia).
    assert (Ej : (j mod T = t)%nat) by (unfold j; rewrite Nat.mod_add by lia; apply Nat.mod_small, Ht).
    destruct (item c) as [i|] eqn:Ei.
    + destruct (Nat.eq_dec i j) as [->|Hij].
      * rewrite (H_in t _ j c Hj Hl Ei). rewrite Ej, Nat.eqb_refl. destruct (Nat.ltb_spec j (S n * T)) as [_|H]; [|exfalso; unfold j in H; clear - H Ht; nia]. cbn [andb].
        apply H_dep; [exact Hj| |exact Ei]. intros d Hd [Hi|Hi]; rewrite IH, Hi by (try exact Hd; lia); [|reflexivity].
        rewrite Ej, Nat.eqb_refl. destruct (Nat.ltb_spec j (n * T)) as [H|_]; [exfalso; unfold j in H; clear - H; lia|reflexivity].
      * rewrite H_out by (try exact Hj; try exact Hl; rewrite Ei; congruence). rewrite IH, Ei by (try exact Hl; lia).
        destruct (Nat.eqb_spec (i mod T) t) as [Em|]; [|reflexivity]. cbn [andb].
        destruct (Nat.ltb_spec i (n * T)) as [H1|H1]; destruct (Nat.ltb_spec i (S n * T)) as [H2|H2]; try reflexivity; [exfalso; clear - H1 H2; nia|].
        exfalso. apply Hij. unfold j. pose proof (Nat.div_mod i T ltac:(lia)) as D. rewrite Em in D.
        assert (i / T = n)%nat by (apply Nat.le_antisymm; [apply Nat.lt_succ_r, Nat.div_lt_upper_bound; lia|apply Nat.div_le_lower_bound; lia]). rewrite H in D. lia.
    + rewrite H_out by (try exact Hj; try exact Hl; rewrite Ei; discriminate). rewrite IH, Ei by (try exact Hl; lia). reflexivity.
Qed.
Hypothesis H_none : forall c j, local c = false -> item c = Some j -> (count * T <= j)%nat -> own c = None.
Lemma par_items m c : local c = false ->
  par T own (strided T count g) m c = match item c with Some j => if (j <? count * T)%nat then F j m c else m c | None => m c end.
Proof.
  intros Hl. unfold par. destruct (item c) as [j|] eqn:Ei.
  - destruct (Nat.ltb_spec j (count * T)) as [Hj|Hj].
    + rewrite (H_own c j Hl Ei Hj). destruct (Nat.ltb_spec (j mod T) T) as [Hm|Hm]; [|pose proof (Nat.mod_upper_bound j T); lia].
      rewrite loop_items, Ei, Nat.eqb_refl by (try exact Hl; try exact Hm; lia). cbn [andb]. destruct (Nat.ltb_spec j (count * T)); [reflexivity|lia].
    + rewrite (H_none c j Hl Ei Hj). reflexivity.
  - destruct (own c) as [t|]; [|reflexivity]. destruct (Nat.ltb_spec t T) as [Ht|]; [|reflexivity]. rewrite loop_items, Ei by (try exact Hl; try exact Ht; lia). reflexivity.
Qed.
End Items.
End Machine.
